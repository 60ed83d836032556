(** Properties C47, C48, C49 and C50: key stores and the encryption engine. *)
From Coq Require Import PeanoNat.
From Verif Require Import Base Text Encodings EncodingsProofs Base64Proofs Crypto CryptoSpec CryptoProofs Properties_Crypto Prog KeyStores KeySpec KeyProofs KeyProofs2 KeyProofs3 CacheProofs.
Open Scope string_scope.
Open Scope nat_scope.

(** The trace of a schedule on a store whose calls are atomic. *)
Notation calls server s0 ms := (trace (run_moves server mem_call (fresh s0) ms)).

(** Running a schedule, or calls one after the other, step by step. *)
Lemma run_cons {S Q A F O B} (a : F -> S -> Q -> S * A) (b : O -> prog Q A B) w m ms w' :
  do_move a b w m = w' -> run_moves a b w (m :: ms) = run_moves a b w' ms.
Proof. intros <-. reflexivity. Qed.
Lemma one_cons {S Q A F O B} (a : F -> S -> Q -> S * A) (b : O -> prog Q A B) d s o os s' r :
  finish a [] d s (b o) = (s', r) -> one_by_one a b d s (o :: os) = r :: one_by_one a b d s' os.
Proof. intros E. cbn. rewrite E. reflexivity. Qed.
Local Ltac tick tac :=
  lazymatch goal with
  | |- context [run_moves ?a ?b ?w (?m :: ?ms)] => erewrite (run_cons a b w m ms) by (tac; reflexivity)
  | |- context [one_by_one ?a ?b ?d ?s (?o :: ?os)] => erewrite (one_cons a b d s o os) by (tac; reflexivity)
  end.

(** * C47: deletion of a key is permanent, and no key is used twice *)

(** In memory: for every interleaving of any number of calls. *)
Theorem C47_memory : forall ms,
  deletion_is_permanent False True (calls mem_server mem_new ms)
  /\ keys_are_unique (calls mem_server mem_new ms)
  /\ keys_are_kept False (calls mem_server mem_new ms)
  /\ keys_come_from_sets (calls mem_server mem_new ms).
Proof.
  intros ms. destruct (store_holds _ _ _ _ mem_lawful mem_new ms (fun _ => eq_refl)) as (_ & _ & _ & _ & H1 & H2 & H3).
  split; [exact H1|]. split; [apply mem_unique|]. split; assumption.
Qed.
Print Assumptions C47_memory.

(** PostgreSQL, whatever statements are lost or unanswered: the deletion of a key that
    was set is permanent. *)
Theorem C47_postgres_partial : forall ms,
  deletion_is_permanent True False (calls pg_store [] ms)
  /\ keys_are_kept True (calls pg_store [] ms)
  /\ keys_come_from_sets (calls pg_store [] ms).
Proof.
  intros ms. destruct (store_holds _ _ _ _ pg_lawful [] ms (fun _ => eq_refl)) as (_ & _ & _ & _ & H1 & H2 & H3). auto.
Qed.
Print Assumptions C47_postgres_partial.

(** DynamoDB with consistent reads, whatever requests are lost or unanswered. *)
Theorem C47_dynamodb_partial : forall ms,
  deletion_is_permanent True True (calls dy_consistent ([], []) ms)
  /\ keys_are_kept True (calls dy_consistent ([], []) ms)
  /\ keys_come_from_sets (calls dy_consistent ([], []) ms).
Proof.
  intros ms. destruct (store_holds _ _ _ _ dy_lawful ([], []) ms (fun _ => eq_refl)) as (_ & _ & _ & _ & H1 & H2 & H3). auto.
Qed.
Print Assumptions C47_dynamodb_partial.

(** One after the other: begin a call, let it make its request. *)
Fixpoint in_turn {F} (n : nat) (f : F) (qs : list kop) : list (move F kop) :=
  match qs with [] => [] | q :: r => Start q :: Step n f :: in_turn (n + 2) f r end.
Definition results {O B} (tr : list (seen O B)) : list B :=
  flat_map (fun e => match e with Done _ _ b => [b] | Began _ => [] end) tr.

Example C47_memory_example :
  let ms := in_turn 0 Fine [Set_ "ann" "k1"; Set_ "bob" "k1"; Set_ "ann" "k2"; Delete "ann"; Set_ "ann" "k2"; Get "ann"; Delete "bob"; Set_ "bob" "k2"; Set_ "cy" "k1"] in
  results (calls mem_server mem_new ms)
    = [Did None; Did (Some KeyUsed); Did (Some KeyExists); Did None; Did (Some KeyExists); Got "" (Some WasDeleted); Did None; Did (Some KeyExists); Did (Some KeyUsed)]
  /\ ended (calls mem_server mem_new ms) 7 6 (Delete "ann") (Did None) /\ ended (calls mem_server mem_new ms) 11 10 (Get "ann") (Got "" (Some WasDeleted)).
Proof. vm_compute. repeat split; reflexivity. Qed.
(** Two calls overlap: the Set that makes its request first wins. *)
Example C47_memory_overlap :
  results (calls mem_server mem_new [Start (Set_ "ann" "k1"); Start (Set_ "ann" "k2"); Start (Get "ann"); Step 1 Fine; Step 2 Fine; Step 0 Fine])
  = [Did None; Got "k2" None; Did (Some KeyExists)].
Proof. vm_compute. reflexivity. Qed.
Example C47_postgres_example :
  let tr := calls pg_store [] (in_turn 0 Fine [Set_ "ann" "k1"; Set_ "bob" "k1"; Delete "ann"; Get "ann"; Set_ "ann" "k2"]) in
  results tr = [Did None; Did (Some KeyUsed); Did None; Got "" (Some WasDeleted); Did (Some KeyExists)]
  /\ known_before tr 4 "ann" /\ ended tr 5 4 (Delete "ann") (Did None).
Proof.
  vm_compute. split; [reflexivity|]. split; [|reflexivity]. exists 1, 0, "k1". split; [apply le_S, le_S, le_n|reflexivity].
Qed.
Example C47_dynamodb_example :
  results (calls dy_consistent ([], []) (in_turn 0 (Fine, 7%N) [Delete "ann"; Set_ "ann" "k1"; Get "ann"; Set_ "bob" "k1"; Get "bob"; Get ""]))
  = [Did None; Did (Some KeyExists); Got "" (Some WasDeleted); Did None; Got "k1" None; Got "" (Some Other)].
Proof. vm_compute. reflexivity. Qed.

(** PostgreSQL: deleting a subject that has no key yet has no effect. *)
Theorem C47_postgres_unknown_subject_refuted : forall s k, k <> "" ->
  results (calls pg_store [] (in_turn 0 Fine [Delete s; Set_ s k; Get s])) = [Did None; Did None; Got k None].
Proof.
  intros s k Hk. cbn. apply String.eqb_neq in Hk. rewrite Hk. cbn. rewrite String.eqb_refl. reflexivity.
Qed.
Print Assumptions C47_postgres_unknown_subject_refuted.
(** ... and a deleted key can be given to another subject. *)
Theorem C47_postgres_reuse_refuted : forall s t k, k <> "" -> s <> t ->
  results (calls pg_store [] (in_turn 0 Fine [Set_ s k; Delete s; Set_ t k])) = [Did None; Did None; Did None]
  /\ ~ keys_are_unique (calls pg_store [] (in_turn 0 Fine [Set_ s k; Delete s; Set_ t k])).
Proof.
  intros s t k Hk Hn. apply String.eqb_neq in Hn. destruct k as [|c k]; [congruence|]. clear Hk.
  assert (E : calls pg_store [] (in_turn 0 Fine [Set_ s (String c k); Delete s; Set_ t (String c k)])
     = [Began (Set_ s (String c k)); Done 0 (Set_ s (String c k)) (Did None); Began (Delete s); Done 2 (Delete s) (Did None); Began (Set_ t (String c k)); Done 4 (Set_ t (String c k)) (Did None)]).
  { unfold pg_store. repeat (cbn; rewrite ?Hn, ?String.eqb_refl, ?andb_false_r, ?Ascii.eqb_refl). reflexivity. }
  rewrite E. split; [reflexivity|]. intros U. specialize (U 1 5 0 4 s t _ eq_refl eq_refl). discriminate.
Qed.
Print Assumptions C47_postgres_reuse_refuted.

(** DynamoDB: nothing keeps two subjects from having one key, ... *)
Theorem C47_dynamodb_unique_refuted : forall s t k, k <> "" -> s <> "" -> t <> "" -> s <> t ->
  results (calls dy_consistent ([], []) (in_turn 0 (Fine, 7%N) [Set_ s k; Set_ t k])) = [Did None; Did None].
Proof.
  intros s t k Hk Hs Ht Hn. apply String.eqb_neq in Hk, Hs, Ht, Hn. cbn. unfold dy_consistent, dy_store.
  repeat (cbn; rewrite ?Hk, ?Hs, ?Ht, ?Hn). reflexivity.
Qed.
Print Assumptions C47_dynamodb_unique_refuted.
(** ... and since it does not ask for consistent reads, Get may return a deleted key. *)
Theorem C47_dynamodb_stale_refuted : forall s k, k <> "" -> s <> "" ->
  let now := (Fine, 0, 7%N) in
  results (calls dy_store ([], []) [Start (Set_ s k); Step 0 now; Start (Delete s); Step 2 now; Start (Get s); Step 4 (Fine, 1, 7%N)])
  = [Did None; Did None; Got k None].
Proof.
  intros s k Hk Hs. apply String.eqb_neq in Hk, Hs. unfold dy_store.
  repeat (cbn; rewrite ?Hk, ?Hs, ?String.eqb_refl). reflexivity.
Qed.
Print Assumptions C47_dynamodb_stale_refuted.

(** Vault: a deleted subject can be given a new key, and the third key is not deleted
    by Delete. *)
Theorem C47_vault_refuted : forall s k1 k2 k3, k1 <> "" -> k2 <> "" -> k3 <> "" ->
  one_by_one va_server va_call Fine [] [Set_ s k1; Get s; Delete s; Get s; Set_ s k2; Get s; Delete s; Get s; Set_ s k3; Delete s; Get s]
  = [Did None; Got k1 None; Did None; Got "" (Some WasDeleted); Did None; Got k2 None; Did None; Got "" (Some WasDeleted); Did None; Did None; Got k3 None].
Proof.
  intros s k1 k2 k3 H1 H2 H3. apply String.eqb_neq in H1, H2, H3.
  repeat (cbn; rewrite ?H1, ?H2, ?H3, ?String.eqb_refl). reflexivity.
Qed.
Print Assumptions C47_vault_refuted.
(** Vault: if the read that Set makes first fails, Set replaces the key: what was
    encrypted with the old one is lost though nobody deleted it. *)
Theorem C47_vault_overwrite_refuted : forall s k1 k2 f, k1 <> "" -> k2 <> "" -> f <> Fine ->
  results (trace (run_moves va_server va_call (fresh []) [Start (Set_ s k1); Step 0 Fine; Step 0 Fine; Start (Set_ s k2); Step 2 f; Step 2 Fine; Start (Get s); Step 4 Fine]))
  = [Did None; Did None; Got k2 None].
Proof.
  intros s k1 k2 f H1 H2 Hf. apply String.eqb_neq in H1, H2.
  destruct f; [congruence|..]; repeat tick ltac:(repeat (cbn; rewrite ?H1, ?H2, ?String.eqb_refl)); reflexivity.
Qed.
Print Assumptions C47_vault_overwrite_refuted.
(** Vault: two overlapping Sets of a subject both succeed. *)
Theorem C47_vault_race_refuted : forall s k1 k2, k1 <> "" -> k2 <> "" ->
  results (trace (run_moves va_server va_call (fresh []) [Start (Set_ s k1); Start (Set_ s k2); Step 0 Fine; Step 1 Fine; Step 0 Fine; Step 1 Fine; Start (Get s); Step 4 Fine]))
  = [Did None; Did None; Got k2 None].
Proof.
  intros s k1 k2 H1 H2. apply String.eqb_neq in H1, H2. repeat tick ltac:(repeat (cbn; rewrite ?H1, ?H2, ?String.eqb_refl)). reflexivity.
Qed.
Print Assumptions C47_vault_race_refuted.
(** Vault: what follows a question mark or a hash in a subject is not part of its path,
    so two subjects may share a key, and deleting one deletes the other. *)
Lemma path_ends s mark x : mark = "?"%char \/ mark = "#"%char -> url_path (s ++ String mark x) = url_path s.
Proof.
  intros M. induction s as [|a s IH]; cbn.
  - destruct M as [-> | ->]; reflexivity.
  - destruct (Ascii.eqb a "?" || Ascii.eqb a "#"); [reflexivity|]. now rewrite IH.
Qed.
Theorem C47_vault_subjects_refuted : forall s k x mark, k <> "" -> mark = "?"%char \/ mark = "#"%char ->
  one_by_one va_server va_call Fine [] [Set_ s k; Get (s ++ String mark x); Delete (s ++ String mark x); Get s]
  = [Did None; Got k None; Did None; Got "" (Some WasDeleted)].
Proof.
  intros s k x mark H M. apply String.eqb_neq in H. pose proof (path_ends s mark x M) as P.
  cbn. rewrite H. cbn. rewrite P, !String.eqb_refl. cbn. rewrite !String.eqb_refl. reflexivity.
Qed.
Print Assumptions C47_vault_subjects_refuted.
(** Of subjects without these two characters each has its own. *)
Theorem C47_vault_subjects_partial : forall s t k, k <> "" -> s <> t ->
  (forall a, In a (list_ascii_of_string s ++ list_ascii_of_string t) -> a <> "?"%char /\ a <> "#"%char) ->
  one_by_one va_server va_call Fine [] [Set_ s k; Get t; Delete t; Get s] = [Did None; Got "" (Some NotFound); Did None; Got k None].
Proof.
  assert (P : forall s, (forall a, In a (list_ascii_of_string s) -> a <> "?"%char /\ a <> "#"%char) -> url_path s = s).
  { induction s as [|a s IH]; intros H; [reflexivity|]. cbn. destruct (H a (or_introl eq_refl)) as [A B].
    apply Ascii.eqb_neq in A, B. rewrite A, B. cbn. f_equal. apply IH. intros; apply H; now right. }
  intros s t k K N H. assert (Es : url_path s = s) by (apply P; intros; apply H; apply in_or_app; auto).
  assert (Et : url_path t = t) by (apply P; intros; apply H; apply in_or_app; auto).
  apply String.eqb_neq in K. assert (N1 : String.eqb s t = false) by now apply String.eqb_neq.
  assert (N2 : String.eqb t s = false) by (apply String.eqb_neq; congruence).
  cbn. rewrite K. cbn. rewrite Es, Et. cbn. rewrite ?N1, ?N2, ?String.eqb_refl. cbn. rewrite ?N1, ?N2, ?String.eqb_refl. reflexivity.
Qed.
Print Assumptions C47_vault_subjects_partial.
Example C47_vault_subjects_example : forall a, In a (list_ascii_of_string "ann" ++ list_ascii_of_string "bob") -> a <> "?"%char /\ a <> "#"%char.
Proof. cbn. intros a H. repeat (destruct H as [<-|H]; [split; discriminate|]). destruct H. Qed.

(** * C48: deleting a subject's key always works *)

Theorem C48_memory : forall ms, deletes_succeed (calls mem_server mem_new ms) /\ deletion_is_permanent False True (calls mem_server mem_new ms).
Proof. intros ms. split; [apply mem_unique|apply C47_memory]. Qed.
Print Assumptions C48_memory.

(** DynamoDB: from any table, a Delete whose request gets through succeeds, for every
    subject but the empty one, and the key is gone. *)
Theorem C48_dynamodb_partial : forall now d s, s <> "" ->
  snd (dy_consistent (Fine, now) d (Delete s)) = Did None
  /\ snd (dy_consistent (Fine, now) (fst (dy_consistent (Fine, now) d (Delete s))) (Get s)) = Got "" (Some WasDeleted).
Proof.
  intros now d s Hs. apply String.eqb_neq in Hs. unfold dy_consistent, dy_store. repeat (cbn; rewrite ?Hs, ?entry_same). destruct (N.ltb_spec 0 (N.succ now)); [split; reflexivity|lia].
Qed.
Print Assumptions C48_dynamodb_partial.


(** PostgreSQL: a deleted row's key becomes the empty text, which must be unique: of all
    subjects that were given a key, at most one can ever be deleted. *)
Theorem C48_postgres_refuted : forall ms i j fi fj s u,
  let tr := calls pg_store [] ms in
  known_before tr fi s -> ended tr i fi (Delete s) (Did None) ->
  known_before tr fj u -> ended tr j fj (Delete u) (Did None) -> s = u.
Proof. exact pg_one_deletion. Qed.
Print Assumptions C48_postgres_refuted.
Example C48_postgres_example :
  let ms := in_turn 0 Fine [Set_ "ann" "k1"; Set_ "bob" "k2"; Delete "ann"; Delete "bob"; Get "bob"] in
  let tr := calls pg_store [] ms in
  results tr = [Did None; Did None; Did None; Did (Some Other); Got "k2" None] /\ ended tr 5 4 (Delete "ann") (Did None) /\ known_before tr 4 "ann" /\ known_before tr 6 "bob".
Proof.
  vm_compute. split; [reflexivity|]. split; [reflexivity|]. split.
  - exists 1, 0, "k1". split; [do 2 apply le_S; apply le_n|reflexivity].
  - exists 3, 2, "k2". split; [do 2 apply le_S; apply le_n|reflexivity].
Qed.
(** The first of them can be. *)
Theorem C48_postgres_partial : forall ms s, (forall u, ~ In (Start (Delete u)) ms) ->
  let t := state (run_moves pg_store mem_call (fresh []) ms) in
  snd (pg_store Fine t (Delete s)) = Did None
  /\ (known_before (calls pg_store [] ms) (length (calls pg_store [] ms)) s ->
      snd (pg_store Fine (fst (pg_store Fine t (Delete s))) (Get s)) = Got "" (Some WasDeleted)).
Proof.
  intros ms s Hd t. pose proof (no_empty_key _ s (no_empty_run ms Hd)) as E. fold t in E.
  destruct (store_holds _ _ _ _ pg_lawful [] ms (fun _ => eq_refl)) as (H & _).
  unfold pg_store. cbn. destruct (entry s t) as [[k d]|] eqn:Es.
  - rewrite E. cbn. rewrite entry_same. split; reflexivity.
  - split; [reflexivity|]. intros (i & from & k & _ & Hk). assert (N : pg_fate t s = None) by (unfold pg_fate; rewrite Es; reflexivity).
    destruct (H _ _ _ _ Hk) as [F|[F _]]; pose proof (eq_trans (eq_sym N) F) as X; discriminate X.
Qed.
Print Assumptions C48_postgres_partial.
Example C48_postgres_partial_example :
  let ms := in_turn 0 Fine [Set_ "ann" "k1"; Set_ "bob" "k2"] in
  (forall u, ~ In (Start (Delete u)) ms) /\ known_before (calls pg_store [] ms) (length (calls pg_store [] ms)) "bob".
Proof.
  split; [intros u H; cbn in H; intuition discriminate|]. exists 3, 2, "k2". split; [apply le_n|reflexivity].
Qed.

(** Vault: after any calls, one after the other, Delete reaches the key if it is the
    first or the second one given to the subject ... *)
Theorem C48_vault_partial : forall qs s,
  let n := times_set (url_path s) (combine qs (one_by_one va_server va_call Fine [] qs)) in
  n = 1 \/ n = 2 ->
  one_by_one va_server va_call Fine [] (qs ++ [Delete s; Get s]) = (one_by_one va_server va_call Fine [] qs ++ [Did None; Got "" (Some WasDeleted)])%list.
Proof.
  intros qs s n Hn. rewrite one_app. f_equal. rewrite va_delete_reaches.
  rewrite va_count, va_hist_combine. fold n. replace (n + length (versions_of (url_path s) [])) with n by (cbn; lia).
  destruct Hn as [-> | ->]; reflexivity.
Qed.
Print Assumptions C48_vault_partial.
Example C48_vault_example :
  let qs := [Set_ "ann" "k1"; Set_ "ann" "k2"; Delete "ann"; Set_ "bob" "k1"; Set_ "ann" "k3"] in
  times_set (url_path "ann") (combine qs (one_by_one va_server va_call Fine [] qs)) = 2.
Proof. vm_compute. reflexivity. Qed.
(** ... and does not if it is a later one: Delete succeeds, the key is still there. *)
Theorem C48_vault_refuted : forall qs s k,
  let n := times_set (url_path s) (combine qs (one_by_one va_server va_call Fine [] qs)) in
  2 < n -> one_by_one va_server va_call Fine [] (qs ++ [Get s]) = (one_by_one va_server va_call Fine [] qs ++ [Got k None])%list ->
  one_by_one va_server va_call Fine [] (qs ++ [Delete s; Get s]) = (one_by_one va_server va_call Fine [] qs ++ [Did None; Got k None])%list.
Proof.
  intros qs s k n Hn H. rewrite one_app in H |- *. apply app_inv_head in H. f_equal. rewrite va_delete_reaches.
  rewrite va_count, va_hist_combine. fold n. replace (n + length (versions_of (url_path s) [])) with n by (cbn; lia).
  destruct n as [|[|[|n]]]; [lia..|]. cbn in H. unfold versions_of. destruct (entry (url_path s) (fst (va_hist [] qs))) as [vs|]; [|discriminate].
  destruct (last vs None); cbn in H; congruence.
Qed.
Print Assumptions C48_vault_refuted.
Example C48_vault_refuted_example :
  let qs := [Set_ "ann" "k1"; Delete "ann"; Set_ "ann" "k2"; Delete "ann"; Set_ "ann" "k3"] in
  times_set (url_path "ann") (combine qs (one_by_one va_server va_call Fine [] qs)) = 3
  /\ one_by_one va_server va_call Fine [] (qs ++ [Get "ann"]) = (one_by_one va_server va_call Fine [] qs ++ [Got "k3" None])%list.
Proof. vm_compute. split; reflexivity. Qed.

(** * C49: the caching store behaves like the store it caches *)

Notation cached cs := (one_by_one (ca_server mem_server) (ca_call mem_call) Fine ([], mem_new) cs).
(** Calls one after the other, by a process that may be restarted between them: the
    results are those of the store behind the cache. *)
Theorem C49_sequential_partial : forall cs, ascending 0 cs ->
  cached cs = one_by_one mem_server mem_call Fine mem_new (map snd cs).
Proof. intros cs H. apply (transparent_from cs 0); [exact H|exact sound_new|apply agree_new|reflexivity]. Qed.
Print Assumptions C49_sequential_partial.
Example C49_sequential_example :
  let cs := [(0, Set_ "ann" "k1"); (0, Get "ann"); (0, Set_ "bob" "k1"); (1, Get "ann"); (1, Get "ann"); (2, Delete "ann"); (2, Get "ann"); (5, Get "ann"); (5, Set_ "ann" "k2"); (5, Get "ann")] in
  ascending 0 cs /\ cached cs = [Did None; Got "k1" None; Did (Some KeyUsed); Got "k1" None; Got "k1" None; Did None; Got "" (Some WasDeleted); Got "" (Some WasDeleted); Did (Some KeyExists); Got "" (Some WasDeleted)].
Proof. split; [cbn; lia|vm_compute; reflexivity]. Qed.

(** Calls that overlap, in one process that may be restarted: a deleted key is never
    served, and the subject never gets another. *)
Theorem C49_deletion_partial : forall ms,
  one_process (ca_server mem_server) (ca_call mem_call) 0 (fresh ([], mem_new)) ms ->
  honoured (trace (run_moves (ca_server mem_server) (ca_call mem_call) (fresh ([], mem_new)) ms)).
Proof. intros ms. apply cache_run. apply cache_fresh. Qed.
Print Assumptions C49_deletion_partial.
(** A Get overlaps a Delete, having read the key from the second store before it. *)
Example C49_deletion_example :
  let ms := [Start (0, Set_ "ann" "k1"); Step 0 Fine; Step 0 Fine; Start (1, Get "ann"); Step 2 Fine; Step 2 Fine;
             Start (1, Delete "ann"); Step 3 Fine; Step 2 Fine; Step 3 Fine; Start (1, Get "ann"); Step 6 Fine; Step 6 Fine] in
  one_process (ca_server mem_server) (ca_call mem_call) 0 (fresh ([], mem_new)) ms
  /\ results (trace (run_moves (ca_server mem_server) (ca_call mem_call) (fresh ([], mem_new)) ms))
     = [Did None; Got "k1" None; Did None; Got "" (Some WasDeleted)].
Proof.
  split; [|vm_compute; reflexivity]. cbn [one_process].
  repeat match goal with
  | |- _ /\ _ => split
  | |- True => exact Logic.I
  | |- _ <= _ => lia
  | |- forall _ _, thread _ _ = Some _ -> _ => let H := fresh in intros ? ? H; vm_compute in H; inversion H; reflexivity
  end.
Qed.

(** Another process serves a deleted key as long as it lives. *)
Theorem C49_two_processes_refuted : forall s k, k <> "" ->
  cached [(0, Set_ s k); (1, Delete s); (0, Get s); (1, Get s)] = [Did None; Did None; Got k None; Got "" (Some WasDeleted)].
Proof.
  intros s k Hk. apply String.eqb_neq in Hk. cbv zeta. repeat tick ltac:(repeat (cbn; rewrite ?Hk, ?String.eqb_refl)). reflexivity.
Qed.
Print Assumptions C49_two_processes_refuted.
(** After a restart, of two overlapping Gets one fails though the key is there. *)
Theorem C49_overlapping_gets_refuted : forall s k, k <> "" ->
  let ms := [Start (0, Set_ s k); Step 0 Fine; Step 0 Fine; Start (1, Get s); Start (1, Get s); Step 2 Fine; Step 3 Fine; Step 2 Fine; Step 3 Fine; Step 2 Fine; Step 3 Fine] in
  results (trace (run_moves (ca_server mem_server) (ca_call mem_call) (fresh ([], mem_new)) ms)) = [Did None; Got k None; Got k (Some KeyUsed)].
Proof.
  intros s k Hk. apply String.eqb_neq in Hk. cbv zeta. repeat tick ltac:(repeat (cbn; rewrite ?Hk, ?String.eqb_refl)). reflexivity.
Qed.
Print Assumptions C49_overlapping_gets_refuted.
(** If the answer to a deletion is lost, the cache still serves the key. *)
Theorem C49_unanswered_deletion_refuted : forall s k, k <> "" ->
  let ms := [Start (0, Set_ s k); Step 0 Fine; Step 0 Fine; Start (0, Delete s); Step 2 Unanswered; Start (0, Get s); Step 4 Fine] in
  results (trace (run_moves (ca_server pg_server) (ca_call pg_call) (fresh ([], [])) ms)) = [Did None; Did (Some Other); Got k None]
  /\ pg_fate (snd (state (run_moves (ca_server pg_server) (ca_call pg_call) (fresh ([], [])) ms))) s = Some None.
Proof.
  intros s k Hk. destruct k as [|c k]; [congruence|]. clear Hk. cbv zeta. repeat tick ltac:(repeat (cbn; rewrite ?String.eqb_refl)).
  unfold pg_fate. cbn. rewrite String.eqb_refl. split; reflexivity.
Qed.
Print Assumptions C49_unanswered_deletion_refuted.
(** In front of PostgreSQL: deleting a subject that has no key marks it in the cache
    only, and from then on every Get returns the key together with an error. *)
Theorem C49_postgres_refuted : forall s k, k <> "" ->
  one_by_one (ca_server pg_server) (ca_call pg_call) Fine ([], []) [(0, Delete s); (0, Set_ s k); (0, Get s)]
    = [Did None; Did (Some KeyExists); Got k (Some KeyExists)]
  /\ one_by_one pg_server pg_call Fine [] [Delete s; Set_ s k; Get s] = [Did None; Did None; Got k None].
Proof.
  intros s k Hk. destruct k as [|c k]; [congruence|]. clear Hk. repeat tick ltac:(repeat (cbn; rewrite ?String.eqb_refl)). split; reflexivity.
Qed.
Print Assumptions C49_postgres_refuted.

(** * C50: the engine honours deletion and uses one key per subject *)

(** What an encryptor must guarantee; the three encryptors do, given that they draw
    as many random bytes as they ask for. *)
Definition deciphers (enc : string -> option string -> string -> answer) (dec : string -> string -> answer) : Prop :=
  forall k n p c, enc k n p = Text c -> dec k c = Text p.
Definition drawing (size : nat) (enc : string -> option string -> string -> answer) (key : string) (nonce : option string) (text : string) : answer :=
  match nonce with Some v => if String.length v =? size then enc key nonce text else Failed | None => enc key None text end.
Theorem C50_encryptors_decipher : forall seal_block open_block seal open, block_cipher seal_block open_block -> opens_sealed seal open ->
  deciphers (drawing 16 (cbc_encrypt seal_block)) (cbc_decrypt open_block)
  /\ deciphers (drawing 12 (gcm_encrypt seal)) (gcm_decrypt open)
  /\ deciphers (drawing 24 (chacha_encrypt seal)) (chacha_decrypt open).
Proof.
  intros sb ob seal open Hb Ho. unfold deciphers, drawing. split; [|split]; intros k n p c H.
  - destruct (C45_encrypting_fails_only_for_want_of_key_or_randomness sb seal k n p) as (F & _).
    destruct n as [v|]; [|rewrite (proj2 F (or_intror eq_refl)) in H; discriminate].
    destruct (Nat.eqb_spec (String.length v) 16) as [L|]; [|discriminate].
    assert (K : aes_key_text k). { unfold cbc_encrypt in H. destruct (unbase64 true k) as [key|] eqn:E; [|discriminate]. destruct (aes_key key) eqn:A; [|discriminate]. exists key. split; [apply unbase64_means; exact E|apply aes_key_size, A]. }
    destruct (C45_cbc sb ob Hb k v p K L) as (c' & E1 & E2). congruence.
  - destruct n as [v|]; [|unfold gcm_encrypt in H; destruct (unbase64 true k); [destruct (aes_key s)|]; discriminate].
    destruct (Nat.eqb_spec (String.length v) 12) as [L|]; [|discriminate].
    assert (K : aes_key_text k). { unfold gcm_encrypt in H. destruct (unbase64 true k) as [key|] eqn:E; [|discriminate]. destruct (aes_key key) eqn:A; [|discriminate]. exists key. split; [apply unbase64_means; exact E|apply aes_key_size, A]. }
    destruct (C45_gcm seal open Ho k v p K L) as (c' & E1 & E2). congruence.
  - destruct n as [v|]; [|unfold chacha_encrypt in H; destruct (unbase64 true k); [destruct (chacha_key s)|]; discriminate].
    destruct (Nat.eqb_spec (String.length v) 24) as [L|]; [|discriminate].
    assert (K : chacha_key_text k). { unfold chacha_encrypt in H. destruct (unbase64 true k) as [key|] eqn:E; [|discriminate]. destruct (chacha_key key) eqn:A; [|discriminate]. exists key. split; [apply unbase64_means; exact E|apply Nat.eqb_eq, A]. }
    destruct (C45_chacha seal open Ho k v p K L) as (c' & E1 & E2). congruence.
Qed.
Print Assumptions C50_encryptors_decipher.

(** For every interleaving of any number of Encrypt, Decrypt and Delete calls. *)
Theorem C50_memory : forall enc dec, deciphers enc dec -> forall ms,
  let tr := trace (run_moves mem_server (engine enc dec) (fresh mem_new) ms) in
  engine_honours_deletion False True tr /\ one_key_per_subject enc tr /\ decrypts_until_deleted False tr.
Proof.
  intros enc dec H ms tr. destruct (eng_holds _ _ _ _ mem_lawful enc dec H mem_new ms (fun _ => eq_refl)) as (K & _ & _ & _ & H1 & H2).
  split; [exact H1|]. split; [|exact H2]. intros s. destruct (K s) as (k & Hk & _). exists k. intros. eapply Hk. eassumption.
Qed.
Print Assumptions C50_memory.
Theorem C50_postgres_partial : forall enc dec, deciphers enc dec -> forall ms,
  let tr := trace (run_moves pg_store (engine enc dec) (fresh []) ms) in
  engine_honours_deletion True False tr /\ one_key_per_subject enc tr /\ decrypts_until_deleted True tr.
Proof.
  intros enc dec H ms tr. destruct (eng_holds _ _ _ _ pg_lawful enc dec H [] ms (fun _ => eq_refl)) as (K & _ & _ & _ & H1 & H2).
  split; [exact H1|]. split; [|exact H2]. intros s. destruct (K s) as (k & Hk & _). exists k. intros. eapply Hk. eassumption.
Qed.
Print Assumptions C50_postgres_partial.
Theorem C50_dynamodb_partial : forall enc dec, deciphers enc dec -> forall ms,
  let tr := trace (run_moves dy_consistent (engine enc dec) (fresh ([], [])) ms) in
  engine_honours_deletion True True tr /\ one_key_per_subject enc tr /\ decrypts_until_deleted True tr.
Proof.
  intros enc dec H ms tr. destruct (eng_holds _ _ _ _ dy_lawful enc dec H ([], []) ms (fun _ => eq_refl)) as (K & _ & _ & _ & H1 & H2).
  split; [exact H1|]. split; [|exact H2]. intros s. destruct (K s) as (k & Hk & _). exists k. intros. eapply Hk. eassumption.
Qed.
Print Assumptions C50_dynamodb_partial.

Definition gcm_engine : eop -> prog kop kout eout := engine (drawing 12 (gcm_encrypt tag_seal)) (gcm_decrypt tag_open).
Definition rand32 : option string := Some "thirty-two bytes make a long key".
Definition ann_text : string := "dHdlbHZlIGJ5dGVzaGVsbG98dGhpcnR5LXR3byBieXRlcyBtYWtlIGEgbG9uZyBrZXl8dHdlbHZlIGJ5dGVz".
Example C50_example :
  let ms := [Start (Encrypt "ann" "hello" rand32 (Some "twelve bytes")); Step 0 Fine; Step 0 Fine;
             Start (Decrypt "ann" ann_text); Step 2 Fine; Start (Deleting "ann"); Step 4 Fine;
             Start (Decrypt "ann" ann_text); Step 6 Fine; Start (Encrypt "ann" "again" rand32 (Some "twelve bytes")); Step 8 Fine] in
  deciphers (drawing 12 (gcm_encrypt tag_seal)) (gcm_decrypt tag_open)
  /\ results (trace (run_moves mem_server gcm_engine (fresh mem_new) ms))
     = [Answer (Text ann_text); Answer (Text "hello"); Deletion None; KeyError WasDeleted; KeyError WasDeleted].
Proof. split; [apply (C50_encryptors_decipher _ _ _ _ shift_cipher tag_opens_sealed)|vm_compute; reflexivity]. Qed.

(** Of two overlapping first encryptions for a subject one fails. *)
Lemma base64_nonempty r : r <> "" -> String.eqb (base64 true r) "" = false.
Proof.
  intros H. apply String.eqb_neq. intros E. apply H. pose proof (base64_back true r) as B. rewrite E in B. vm_compute in B. congruence.
Qed.
Theorem C50_overlapping_first_encryptions_refuted : forall enc dec s t1 t2 r1 r2 n1 n2, r1 <> "" -> r2 <> "" -> r1 <> r2 ->
  results (trace (run_moves mem_server (engine enc dec) (fresh mem_new)
    [Start (Encrypt s t1 (Some r1) n1); Start (Encrypt s t2 (Some r2) n2); Step 0 Fine; Step 1 Fine; Step 0 Fine; Step 1 Fine]))
  = [Answer (enc (base64 true r1) n1 t1); KeyError KeyExists].
Proof.
  intros enc dec s t1 t2 r1 r2 n1 n2 H1 H2 N. pose proof (base64_nonempty _ H1) as K1. pose proof (base64_nonempty _ H2) as K2.
  assert (D : String.eqb (base64 true r2) (base64 true r1) = false).
  { apply String.eqb_neq. intros E. apply N. pose proof (base64_back true r1) as B. rewrite <- E, base64_back in B. congruence. }
  repeat tick ltac:(repeat (cbn -[base64]; unfold member; rewrite ?K1, ?K2, ?D, ?String.eqb_refl)). reflexivity.
Qed.
Print Assumptions C50_overlapping_first_encryptions_refuted.

(** Vault: both succeed, with different keys, and the first text is lost. *)
Theorem C50_vault_refuted : forall enc dec s t1 t2 r1 r2 n1 n2 c, r1 <> "" -> r2 <> "" ->
  results (trace (run_moves va_server (fun o => over va_call (engine enc dec o)) (fresh [])
    [Start (Encrypt s t1 (Some r1) n1); Start (Encrypt s t2 (Some r2) n2); Step 0 Fine; Step 1 Fine; Step 0 Fine; Step 1 Fine; Step 0 Fine; Step 1 Fine;
     Start (Decrypt s c); Step 4 Fine]))
  = [Answer (enc (base64 true r1) n1 t1); Answer (enc (base64 true r2) n2 t2); Answer (dec (base64 true r2) c)].
Proof.
  intros enc dec s t1 t2 r1 r2 n1 n2 c H1 H2. pose proof (base64_nonempty _ H1) as K1. pose proof (base64_nonempty _ H2) as K2.
  repeat tick ltac:(repeat (cbn -[base64]; rewrite ?K1, ?K2, ?String.eqb_refl)). reflexivity.
Qed.
Print Assumptions C50_vault_refuted.
(** The two keys do differ, and with the second the first text is not recovered. *)
Example C50_vault_refuted_example :
  exists c, drawing 12 (gcm_encrypt tag_seal) (base64 true "thirty-two bytes make a long key") (Some "twelve bytes") "hello" = Text c
  /\ gcm_decrypt tag_open (base64 true "thirty-two other bytes are a key") c = Failed.
Proof. eexists. split; vm_compute; reflexivity. Qed.

(** PostgreSQL, and Vault: after the deletion of a subject without a key, the engine
    encrypts for it. *)
Theorem C50_unknown_subject_refuted : forall enc dec s t r n, r <> "" ->
  one_by_one pg_store (engine enc dec) Fine [] [Deleting s; Encrypt s t (Some r) n] = [Deletion None; Answer (enc (base64 true r) n t)]
  /\ one_by_one va_server (fun o => over va_call (engine enc dec o)) Fine [] [Deleting s; Encrypt s t (Some r) n] = [Deletion None; Answer (enc (base64 true r) n t)].
Proof.
  intros enc dec s t r n H. pose proof (base64_nonempty _ H) as K.
  repeat tick ltac:(unfold pg_store; repeat (cbn -[base64]; rewrite ?K, ?String.eqb_refl)). split; reflexivity.
Qed.
Print Assumptions C50_unknown_subject_refuted.
