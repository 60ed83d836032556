(** Property theorems about the Given / When / Then test helper (C90). *)
From Coq Require Import PeanoNat Permutation.
From Verif Require Import Base LogProofs Bdd BddProofs.

(** * C90 *)

(** On an empty store, with every event type bound and no failing read, whatever Given
    was called with before: the command sees exactly the given events, and the test
    passes iff in every stream of an expected event exactly the expected events were
    raised, in their order. *)
Theorem C90_expected_partial : forall E same bound stream_of, (forall a b : E, same a b = true <-> a = b) ->
  forall earlier events command expected cut raised, raised = command (history stream_of events) ->
  expected <> [] -> (forall s e, In (s, e) raised -> bound e = true) ->
  then_ E same bound stream_of (given E events earlier) (carries_out command) expected cut no_cut [] = true
  <-> forall s, In s (map stream_of expected) ->
        map snd (filter (fun p => String.eqb (fst p) s) raised) = filter (fun e => String.eqb (stream_of e) s) expected.
Proof.
  intros E same bound stream_of SE earlier events command expected cut raised -> NE B.
  exact (expected_iff E same bound stream_of SE events (command (history stream_of events)) expected cut NE B).
Qed.
Print Assumptions C90_expected_partial.

(** If nothing was raised elsewhere, passing means: the raised events are the expected
    ones, stream by stream in the expected order. *)
Theorem C90_exactly_partial : forall E same bound stream_of, (forall a b : E, same a b = true <-> a = b) ->
  forall earlier events command expected cut raised, raised = command (history stream_of events) ->
  expected <> [] -> (forall s e, In (s, e) raised -> bound e = true) ->
  in_own_stream stream_of raised -> (forall s e, In (s, e) raised -> In s (map stream_of expected)) ->
  then_ E same bound stream_of (given E events earlier) (carries_out command) expected cut no_cut [] = true ->
  Permutation (map snd raised) expected
  /\ forall s, filter (fun e => String.eqb (stream_of e) s) (map snd raised) = filter (fun e => String.eqb (stream_of e) s) expected.
Proof.
  intros E same bound stream_of SE earlier events command expected cut raised -> NE B O C T.
  exact (exact_perm E same bound stream_of SE events _ expected cut NE B O C T).
Qed.
Print Assumptions C90_exactly_partial.

(** With no expected events: it passes iff nothing was raised. *)
Theorem C90_nothing_partial : forall E same bound stream_of (earlier events : list E) command cuts raised,
  raised = command (history stream_of events) ->
  (forall e, In e events -> bound e = true) -> (forall s e, In (s, e) raised -> bound e = true) ->
  then_ E same bound stream_of (given E events earlier) (carries_out command) [] None cuts [] = true <-> raised = [].
Proof.
  intros E same bound stream_of earlier events command cuts raised ->.
  exact (nothing_iff E same bound stream_of events (command (history stream_of events)) cuts).
Qed.
Print Assumptions C90_nothing_partial.

(** Events here: a stream and a value. *)
Definition ev : Type := string * N.
Definition ev_same (a b : ev) : bool := String.eqb (fst a) (fst b) && (snd a =? snd b).
Lemma ev_same_eq : forall a b, ev_same a b = true <-> a = b.
Proof.
  intros [a x] [b y]. unfold ev_same. cbn. rewrite Bool.andb_true_iff, String.eqb_eq, N.eqb_eq.
  split; [intros [-> ->]; auto|intros [= -> ->]; auto].
Qed.
Definition known (_ : ev) : bool := true.
Definition at_ (s : string) (n : N) : string * ev := (s, (s, n)).

(** A command that raises as many events as have happened in stream "a". *)
Definition echo (st : shelf ev) : shelf ev := map (fun p => at_ "a" (snd (snd p))) (filter (fun p => String.eqb (fst p) "a") st).
Example C90_witness_command :
  then_ ev ev_same known fst (given ev [("a", 1); ("b", 2); ("a", 3)] [("a", 9)]) (carries_out echo) [("a", 1); ("a", 3)] None no_cut [] = true
  /\ echo (history fst [("a", 1); ("b", 2); ("a", 3)]) = [at_ "a" 1; at_ "a" 3]
  /\ then_ ev ev_same known fst (given ev [("b", 2)] [("a", 9)]) (carries_out echo) [] None no_cut [] = true.
Proof. split; [reflexivity|]. split; reflexivity. Qed.
Example C90_witness :
  then_ ev ev_same known fst [("a", 1); ("b", 2)] (raises [at_ "a" 3; at_ "b" 4; at_ "a" 5]) [("b", 4); ("a", 3); ("a", 5)] None no_cut [] = true
  /\ in_own_stream fst [at_ "a" 3; at_ "b" 4; at_ "a" 5]
  /\ (forall s e, In (s, e) [at_ "a" 3; at_ "b" 4; at_ "a" 5] -> In s (map fst [("b", 4); ("a", 3); ("a", 5)]))
  /\ then_ ev ev_same known fst [("a", 1); ("b", 2)] (raises [at_ "a" 3; at_ "b" 4; at_ "a" 5]) [("b", 4); ("a", 5); ("a", 3)] None no_cut [] = false
  /\ then_ ev ev_same known fst [("a", 1)] (raises []) [] None no_cut [] = true
  /\ then_ ev ev_same known fst [("a", 1)] (raises [at_ "b" 4]) [] None no_cut [] = false.
Proof.
  split; [reflexivity|]. split; [intros s e [[= <- <-]|[[= <- <-]|[[= <- <-]|[]]]]; reflexivity|].
  split; [intros s e [[= <- <-]|[[= <- <-]|[[= <- <-]|[]]]]; cbn; auto|]. split; [reflexivity|]. split; reflexivity.
Qed.

(** The function of ThenInspectEvents is given exactly the raised events, those of a
    stream in their order. *)
Theorem C90_inspect_partial : forall E same stream_of, (forall a b : E, same a b = true <-> a = b) ->
  forall earlier events command keys raised, raised = command (history stream_of events) -> in_own_stream stream_of raised ->
  Permutation keys (streams E stream_of (carries_out command (history stream_of events))) ->
  Permutation (inspected E stream_of (given E events earlier) (carries_out command) keys []) (map snd raised)
  /\ forall s, filter (fun e => String.eqb (stream_of e) s) (inspected E stream_of (given E events earlier) (carries_out command) keys [])
       = filter (fun e => String.eqb (stream_of e) s) (map snd raised).
Proof.
  intros E same stream_of SE earlier events command keys raised -> O P. split.
  - exact (inspected_perm E same stream_of SE events _ keys O P).
  - exact (inspected_own E stream_of events _ keys O P).
Qed.
Print Assumptions C90_inspect_partial.

(** Which is not the order of the raised events; it even differs between runs. *)
Theorem C90_inspect_order_refuted : exists raised keys keys',
  in_own_stream fst raised
  /\ Permutation keys (streams ev fst (raises raised (prepare ev fst [] [])))
  /\ Permutation keys' (streams ev fst (raises raised (prepare ev fst [] [])))
  /\ inspected ev fst [] (raises raised) keys [] <> map snd raised
  /\ inspected ev fst [] (raises raised) keys [] <> inspected ev fst [] (raises raised) keys' [].
Proof.
  exists [at_ "a" 1; at_ "b" 2; at_ "a" 3], ["a"; "b"], ["b"; "a"].
  split; [intros s e [[= <- <-]|[[= <- <-]|[[= <- <-]|[]]]]; reflexivity|].
  split; [vm_compute; apply perm_swap|]. split; [vm_compute; apply Permutation_refl|]. split; vm_compute; discriminate.
Qed.
Print Assumptions C90_inspect_order_refuted.

(** What is raised in other streams is never noticed, whatever it is. *)
Theorem C90_other_streams_refuted : forall E same bound stream_of (c : list E) raised extra expected cut cuts st,
  expected <> [] -> (forall s e, In (s, e) extra -> ~ In s (map stream_of expected)) ->
  then_ E same bound stream_of c (raises (raised ++ extra)) expected cut cuts st
  = then_ E same bound stream_of c (raises raised) expected cut cuts st.
Proof. intros. now apply others_unseen. Qed.
Print Assumptions C90_other_streams_refuted.
Example C90_witness_other : then_ ev ev_same known fst [] (raises ([at_ "a" 3] ++ [at_ "b" 4])) [("a", 3)] None no_cut [] = true.
Proof. reflexivity. Qed.

(** Nor the order between streams. *)
Theorem C90_order_refuted : exists raised expected,
  in_own_stream fst raised /\ map snd raised <> expected
  /\ then_ ev ev_same known fst [] (raises raised) expected None no_cut [] = true.
Proof.
  exists [at_ "a" 1; at_ "b" 2], [("b", 2); ("a", 1)].
  split; [intros s e [[= <- <-]|[[= <- <-]|[]]]; reflexivity|]. split; [discriminate|reflexivity].
Qed.
Print Assumptions C90_order_refuted.

(** A read that fails just after the expected events passes, whatever else was raised:
    the helper never looks at the iterator's error after Next() returned false. *)
Theorem C90_failing_read_refuted : forall E same bound stream_of, (forall a b : E, same a b = true <-> a = b) ->
  forall c s expected more cut, expected <> [] -> (forall e, In e expected -> stream_of e = s /\ bound e = true) ->
  then_ E same bound stream_of c (raises (map (fun e => (s, e)) (expected ++ more))) expected cut
    (fun _ => Some (length expected)) [] = true.
Proof. intros. now apply failing_read_passes. Qed.
Print Assumptions C90_failing_read_refuted.
Example C90_witness_failing_read :
  then_ ev ev_same known fst [("a", 1)] (raises (map (fun e => ("a", e)) ([("a", 3)] ++ [("a", 4)]))) [("a", 3)] None (fun _ => Some 1%nat) [] = true.
Proof. reflexivity. Qed.

(** On a store that was used before: expecting nothing fails although nothing was
    raised, and expecting the old events passes although nothing was raised. *)
Theorem C90_used_store_refuted : forall E same bound stream_of, (forall a b : E, same a b = true <-> a = b) ->
  (forall st cuts c, st <> [] -> (forall s e, In (s, e) st -> bound e = true) -> (forall e, In e c -> bound e = true) ->
     then_ E same bound stream_of c (raises []) [] None cuts st = false)
  /\ (forall s old cut, old <> [] -> (forall e, In e old -> stream_of e = s /\ bound e = true) ->
     then_ E same bound stream_of [] (raises []) old cut no_cut (map (fun e => (s, e)) old) = true).
Proof.
  intros E same bound stream_of SE. split.
  - intros st cuts c NE B Bc. now apply used_store_fails.
  - intros s old cut NE H. now apply used_store_passes.
Qed.
Print Assumptions C90_used_store_refuted.
Example C90_witness_used :
  then_ ev ev_same known fst [("a", 1)] (raises []) [] None no_cut [at_ "b" 7] = false
  /\ then_ ev ev_same known fst [] (raises []) [("b", 7)] None no_cut [at_ "b" 7] = true.
Proof. split; reflexivity. Qed.
