(** C99 for the EventStoreDB provider: calls whose context is done, and calls whose
    context is not. *)
From Coq Require Import PeanoNat.
From Verif Require Import Base Locks LocksProofs Postgres EventStore EventStoreProofs EventStoreMore Properties_Cancel Properties_EventStore.
Open Scope string_scope.
Open Scope list_scope.
Open Scope N_scope.

(** Nothing was sent that changes the server, nothing is remembered, and the caller is
    told [x]. *)
Definition only_told (k k' : esconf) (i : nat) (x : out) : Prop :=
  x_log k' = x_log k /\ x_tomb k' = x_tomb k /\ x_del k' = x_del k /\ x_bcast k' = x_bcast k
  /\ x_hist k' = x_hist k ++ [Ret i x].

(** Events of one aggregate, all of which encoding/json can encode. *)
Definition sendable (j : jlib) (evs : list event) : Prop :=
  exists t i, Forall (fun e => ev_atype e = t /\ ev_aid e = i /\ j_meta j e <> None /\ j_data j e <> None) evs.
Lemma propose_sendable j s t i : forall evs,
  Forall (fun e => ev_atype e = t /\ ev_aid e = i /\ j_meta j e <> None /\ j_data j e <> None) evs ->
  exists rs, propose j s t i evs = inr rs.
Proof.
  induction evs as [|e evs IH]; intros H; cbn [propose]; [eauto|].
  inversion H as [|? ? (A & B & C & D) H']; subst. rewrite !String.eqb_refl, !andb_false_r. cbn [negb andb].
  destruct (j_meta j e); [|congruence]. destruct (j_data j e); [|congruence].
  destruct (IH H') as (rs & ->). eauto.
Qed.

(** C99: in every state of the server and the process, a delete or count whose context is
    done before the call, and a save that expects no number or 0 with events that can be
    sent, fails with context.Canceled and changes nothing. *)
Theorem C99_eventstore_done_before_partial : forall j prefix recdel k i o gaps,
  nth_error (x_calls k) i = Some (mk_escall o XNew) -> with_context (Some O) o ->
  match o with
  | OpSave ex _ evs _ => (ex = None \/ ex = Some 0) /\ sendable j evs
  | _ => True
  end ->
  exists k', xrun j prefix recdel k (match o with OpSave _ _ _ _ => [XStep i gaps; XStep i gaps] | _ => [XStep i gaps] end) = Some k'
    /\ only_told k k' i (OutFailed ECanceled).
Proof.
  intros j prefix recdel k i o gaps Hi Hw Ho.
  destruct Hw as [ex s e evs|n s|s].
  - destruct Ho as [Hex (t & a & Hs)].
    assert (Ea : ev_atype e = t /\ ev_aid e = a) by (inversion Hs; tauto). destruct Ea as [<- <-].
    destruct (propose_sendable j s _ _ _ Hs) as (rs & Ep).
    cbn [xrun xstep]. rewrite Hi. cbn [es_op es_pc es_step done_at Nat.leb].
    unfold after_check. rewrite Ep.
    assert (E : (match ex with Some x => if x =? 0 then None else Some (EUnexpectedSeq x 0) | None => None end) = None)
      by (destruct Hex as [->| ->]; reflexivity).
    rewrite E. cbn [set_xcall x_calls].
    assert (En : nth_error (upd i (mk_escall (OpSave ex s (e :: evs) (Some O)) (XAppend rs)) (x_calls k)) i
                 = Some (mk_escall (OpSave ex s (e :: evs) (Some O)) (XAppend rs))).
    { clear - Hi. revert i Hi. induction (x_calls k) as [|a l IH]; intros [|i] H; try discriminate; cbn in *; auto. }
    rewrite En. cbn [es_op es_pc es_step done_at Nat.leb]. eexists. split; [reflexivity|].
    repeat split; reflexivity.
  - cbn [xrun xstep]. rewrite Hi. cbn. eexists. split; [reflexivity|]. repeat split; reflexivity.
  - cbn [xrun xstep]. rewrite Hi. cbn. eexists. split; [reflexivity|]. repeat split; reflexivity.
Qed.
Print Assumptions C99_eventstore_done_before_partial.

(** Missing, because it is false for every other expected number: the caller is told that
    the stream is empty, not that the call was cancelled. *)
Theorem C99_eventstore_conflict_refuted : forall j prefix recdel k i x s e evs gaps, x <> 0 ->
  nth_error (x_calls k) i = Some (mk_escall (OpSave (Some x) s (e :: evs) (Some O)) XNew) ->
  exists k', xrun j prefix recdel k [XStep i gaps] = Some k'
    /\ only_told k k' i (OutFailed (EUnexpectedSeq x 0)).
Proof.
  intros j prefix recdel k i x s e evs gaps Hx Hi. cbn [xrun xstep]. rewrite Hi.
  cbn [es_op es_pc es_step done_at Nat.leb]. unfold after_check. destruct (N.eqb_spec x 0); [congruence|].
  eexists. split; [reflexivity|]. repeat split; reflexivity.
Qed.
Print Assumptions C99_eventstore_conflict_refuted.

(** ** Calls whose context is never done *)
Lemma loop_no_cancel j prefix s n : forall es total, ~ In (RErr ECanceled) (stream_loop j prefix s n total es).
Proof.
  induction es as [|e es IH]; intros total; cbn [stream_loop].
  - destruct total; cbn; intuition discriminate.
  - destruct (internal e); [apply IH|]. destruct (negb _); [apply IH|]. destruct (record_from j e); [|cbn; intuition discriminate].
    destruct (negb _); [apply IH|]. destruct (_ <? _); [apply IH|]. intros [H|H]; [discriminate|]. now apply IH in H.
Qed.
Lemma read_no_cancel j prefix log tomb s n : ~ In (RErr ECanceled) (read_stream j prefix log tomb s n).
Proof.
  unfold read_stream. destruct (memb _ _); [cbn; intuition discriminate|].
  destruct (events_of _ _); [cbn; intuition discriminate|]. apply loop_no_cancel.
Qed.
Lemma seq_of_err : forall l n e, seq_of n l = inl e -> In (RErr e) l.
Proof.
  induction l as [|[r|e'] l IH]; intros n e; cbn; [discriminate|intros H; right; eauto|intros [= ->]; auto].
Qed.
Lemma propose_no_cancel j s : forall evs t i, propose j s t i evs <> inl ECanceled.
Proof.
  induction evs as [|e evs IH]; intros t i; cbn [propose]; [discriminate|].
  destruct (_ && _); [discriminate|]. destruct (_ && _); [discriminate|].
  destruct (j_meta j e), (j_data j e); try discriminate.
  specialize (IH (ev_atype e) (ev_aid e)). destruct (propose _ _ _ _ evs); congruence.
Qed.
Lemma in_snoc {A} (l : list A) x y : In x (l ++ [y]) -> In x l \/ x = y.
Proof. intros H. apply in_app_or in H as [H|[H|[]]]; auto. Qed.
Lemma check_ret j i o ex s evs n k i' x : In (Ret i' x) (x_hist (after_check j i o ex s evs n k)) ->
  In (Ret i' x) (x_hist k) \/ i' = i /\ x <> OutFailed ECanceled.
Proof.
  unfold after_check. set (w := match ex with Some x0 => _ | None => None end).
  assert (Hw : w <> Some ECanceled) by (unfold w; destruct ex; [destruct (_ =? _)|]; discriminate).
  destruct w as [e|].
  - cbn [xreply x_hist]. intros H. apply in_snoc in H as [H|[= -> ->]]; [auto|]. right. split; congruence.
  - pose proof (propose_no_cancel j s evs (match evs with e :: _ => ev_atype e | [] => "" end) (match evs with e :: _ => ev_aid e | [] => "" end)) as Hp.
    destruct (propose _ _ _ _ _) as [e|rs].
    + cbn [xreply x_hist]. intros H. apply in_snoc in H as [H|[= -> ->]]; [auto|]. right. split; congruence.
    + auto.
Qed.

Ltac one_reply := let H := fresh in
  intros H; cbn [xreply set_xcall set_log add_tomb add_del x_hist] in H;
  first [ left; exact H | apply in_snoc in H as [H|[= -> ->]]; [left; exact H | right; split; [reflexivity|intros _; discriminate]] ].

Ltac one_broken := let H := fresh in let W := fresh in
  intros H; cbn [xreply set_xcall set_log add_tomb add_del x_hist] in H;
  apply in_snoc in H as [H|[= -> ->]]; [left; exact H | right; split; [reflexivity|intros W; first [discriminate | inversion W; subst; discriminate]]].

Lemma step_ret j prefix recdel k lb k' i x : xstep j prefix recdel k lb = Some k' -> In (Ret i x) (x_hist k') ->
  In (Ret i x) (x_hist k) \/ exists c, nth_error (x_calls k) i = Some c /\ (with_context None (es_op c) -> x <> OutFailed ECanceled).
Proof.
  assert (Q : forall i' c, nth_error (x_calls k) i' = Some c ->
            In (Ret i x) (x_hist k) \/ i = i' /\ (with_context None (es_op c) -> x <> OutFailed ECanceled) ->
            In (Ret i x) (x_hist k) \/ exists c, nth_error (x_calls k) i = Some c /\ (with_context None (es_op c) -> x <> OutFailed ECanceled)).
  { intros i' c Hc [H|[-> H]]; [auto|right; eauto]. }
  destruct lb as [o|i' gaps|i' n|i' gaps| | |sn ty r gap|]; cbn [xstep].
  - intros [= <-]. cbn [x_hist]. intros H. apply in_snoc in H as [H|H]; [auto|discriminate].
  - destruct (nth_error (x_calls k) i') as [[o p]|] eqn:Hc; [|discriminate]. intros Hs Hr. apply (Q _ _ Hc). revert Hs Hr. cbn [es_op es_pc].
    destruct p, o as [ex s evs cn|ex s cn|g|g ts|m s|s cn]; cbn [es_step]; try discriminate.
    + destruct evs as [|e evs]; intros [= <-]; [one_reply|]. intros H. apply check_ret in H. tauto.
    + destruct (done_at cn 0) eqn:Ed.
      { intros [= <-]. cbn [xreply x_hist]. intros H. apply in_snoc in H as [H|[= -> ->]]; [auto|]. right. split; [auto|].
        intros W. inversion W; subst. discriminate. }
      destruct (memb _ _); [intros [= <-]; one_reply|]. destruct (_ =? _); [destruct recdel|]; intros [= <-]; one_reply.
    + intros [= <-]; one_reply.
    + intros [= <-]; one_reply.
    + intros [= <-]; one_reply.
    + intros [= <-]. destruct (done_at cn 0) eqn:Ed; [|one_reply].
      cbn [xreply x_hist]. intros H. apply in_snoc in H as [H|[= -> ->]]; [auto|]. right. split; [auto|].
      intros W. inversion W; subst. discriminate.
    + destruct (done_at cn 1) eqn:Ed.
      { intros [= <-]. cbn [xreply x_hist]. intros H. apply in_snoc in H as [H|[= -> ->]]; [auto|]. right. split; [auto|].
        intros W. inversion W; subst. discriminate. }
      destruct (memb _ _); [intros [= <-]; one_reply|]. destruct (append_accepted _ _ _ _); intros [= <-]; one_reply.
    + destruct (done_at cn 1) eqn:Ed.
      * cbn [seq_of]. intros [= <-]. cbn [xreply x_hist]. intros H. apply in_snoc in H as [H|[= -> ->]]; [auto|]. right. split; [auto|].
        intros W. inversion W; subst. discriminate.
      * destruct (seq_of 0 _) as [er|n] eqn:Eq; intros [= <-]; [|one_reply].
        cbn [xreply x_hist]. intros H. apply in_snoc in H as [H|[= -> ->]]; [auto|]. right. split; [auto|].
        intros _ [= ->]. apply seq_of_err in Eq. exact (read_no_cancel _ _ _ _ _ _ Eq).
    + intros [= <-]; one_reply.
  - destruct (nth_error (x_calls k) i') as [[o p]|] eqn:Hc; [|discriminate]. intros Hs Hr. apply (Q _ _ Hc). revert Hs Hr. cbn [es_op es_pc].
    destruct p, o as [ex s evs cn|ex s cn|g|g ts|m s|s cn]; cbn [es_fail]; try discriminate; try (intros [= <-]; one_broken).
    destruct ex; [|discriminate]. destruct evs as [|e evs]; [discriminate|]. intros [= <-] H. apply check_ret in H. tauto.
  - destruct (nth_error (x_calls k) i') as [[o p]|] eqn:Hc; [|discriminate]. intros Hs Hr. apply (Q _ _ Hc). revert Hs Hr. cbn [es_op es_pc].
    destruct p, o as [ex s evs cn|ex s cn|g|g ts|m s|s cn]; cbn [es_lost]; try discriminate.
    + destruct (memb _ _); [discriminate|]. destruct (_ =? _); [|discriminate]. intros [= <-]; one_broken.
    + destruct (memb _ _); [discriminate|]. destruct (append_accepted _ _ _ _); [|discriminate]. intros [= <-]; one_broken.
  - unfold es_deliver. destruct (x_sub k) as [q|]; [|discriminate]. destruct (nth_error (x_log k) q) as [e|]; [|discriminate].
    destruct (internal e); [intros [= <-]; auto|]. destruct (negb _); [intros [= <-]; auto|]. destruct (record_from j e); intros [= <-]; auto.
  - intros [= <-]; auto.
  - destruct (memb _ _); [discriminate|]. intros [= <-]; auto.
  - intros [= <-]; auto.
Qed.

(** C99: whatever other calls, other applications, failures and restarts there are, a call
    whose context is never done is not told that it was cancelled. *)
Theorem C99_eventstore_never_done : forall j prefix recdel ls k i o,
  xrun j prefix recdel es_start ls = Some k -> In (Inv i o) (x_hist k) -> with_context None o ->
  ~ In (Ret i (OutFailed ECanceled)) (x_hist k).
Proof.
  intros j prefix recdel ls k i o H Hi Hw.
  assert (K : forall ls k0, good j prefix k0 ->
            (forall i o, In (Inv i o) (x_hist k0) -> with_context None o -> ~ In (Ret i (OutFailed ECanceled)) (x_hist k0)) ->
            xrun j prefix recdel k0 ls = Some k ->
            forall i o, In (Inv i o) (x_hist k) -> with_context None o -> ~ In (Ret i (OutFailed ECanceled)) (x_hist k)).
  { clear. induction ls as [|lb ls IH]; intros k0 G T; cbn [xrun]; [intros [= <-]; exact T|].
    destruct (xstep j prefix recdel k0 lb) as [k1|] eqn:E; [|discriminate].
    pose proof (good_step _ _ _ _ _ _ G E) as G1. apply IH; [exact G1|]. intros i o Hi Hw Hr.
    destruct (step_ret _ _ _ _ _ _ _ _ E Hr) as [Hr0|(c & Hc & Hn)].
    - exact (T i o (inv_old _ _ _ _ _ _ _ _ _ G G1 E Hr0 Hi) Hw Hr0).
    - destruct (ops_keep _ _ _ _ _ _ _ _ E Hc) as (c' & Hc' & Eo). rewrite (op_of_inv _ _ _ _ _ _ G1 Hc' Hi) in Eo.
      rewrite <- Eo in Hn. exact (Hn Hw eq_refl). }
  exact (K ls es_start (good_start _ _) (fun _ _ F => match F with end) H i o Hi Hw).
Qed.
Print Assumptions C99_eventstore_never_done.

(** ** Calls told that they were cancelled *)

(** The request sent belongs to call [i]. *)
Definition request_of (i : nat) (lb : xlabel) : Prop :=
  match lb with XStep i' _ | XFail i' _ | XLost i' _ => i' = i | _ => False end.
(** The server executed the request, and the answer did not arrive. *)
Definition unanswered (lb : xlabel) : Prop := match lb with XLost _ _ => True | _ => False end.
Definition same_store (k k' : esconf) : Prop := x_log k' = x_log k /\ x_tomb k' = x_tomb k /\ x_del k' = x_del k.

Inductive moved (k : esconf) (lb : xlabel) (k' : esconf) (i : nat) (c : escall) : Prop :=
| moved_on p : p <> XDone -> es_pc c <> XMark -> x_calls k' = upd i (mk_escall (es_op c) p) (x_calls k) -> x_hist k' = x_hist k ->
    same_store k k' \/ p = XMark -> moved k lb k' i c
| moved_out x : x_calls k' = upd i (mk_escall (es_op c) XDone) (x_calls k) -> x_hist k' = x_hist k ++ [Ret i x] ->
    same_store k k' \/ x <> OutFailed ECanceled \/ unanswered lb -> (es_pc c = XMark -> x = OutDeleted) -> moved k lb k' i c.

Ltac now_out := eapply moved_out; [reflexivity|reflexivity| first [left; repeat split; reflexivity | right; left; discriminate | right; right; exact Logic.I] | intro; solve [discriminate|reflexivity]].
Lemma check_moved j i c ex s evs n k lb : es_pc c = XNew -> moved k lb (after_check j i (es_op c) ex s evs n k) i c.
Proof.
  intros E. unfold after_check. destruct (match ex with Some _ => _ | None => _ end).
  - eapply moved_out; [reflexivity|reflexivity|left; repeat split; reflexivity|congruence].
  - destruct (propose _ _ _ _ _).
    + eapply moved_out; [reflexivity|reflexivity|left; repeat split; reflexivity|congruence].
    + eapply moved_on; [|congruence|reflexivity|reflexivity|left; repeat split; reflexivity]. discriminate.
Qed.
Lemma own_request j prefix recdel k lb k' i c : xstep j prefix recdel k lb = Some k' -> request_of i lb ->
  nth_error (x_calls k) i = Some c -> moved k lb k' i c /\ es_pc c <> XDone.
Proof.
  intros H R Hc. destruct lb as [o|i' gaps|i' n|i' gaps| | |sn ty r gap|]; cbn [request_of] in R; try contradiction; subst i';
    cbn [xstep] in H; rewrite Hc in H; destruct c as [o p]; cbn [es_op es_pc] in *.
  - split; [|intros ->; destruct o; discriminate H]. revert H.
    destruct p, o as [ex s evs cn|ex s cn|g|g ts|m s|s cn]; cbn [es_step]; try discriminate; try (intros [= <-]; now_out).
    + destruct evs as [|e evs]; intros [= <-]; [now_out|]. apply (check_moved j i (mk_escall (OpSave ex s (e :: evs) cn) XNew)). reflexivity.
    + destruct (done_at cn 0); [intros [= <-]; now_out|]. destruct (memb _ _); [intros [= <-]; now_out|].
      destruct (_ =? _); [destruct recdel|]; intros [= <-]; [|now_out|].
      * eapply moved_on; [|cbn; discriminate|reflexivity|reflexivity|right; reflexivity]. discriminate.
      * eapply moved_on; [|cbn; discriminate|reflexivity|reflexivity|left; repeat split; reflexivity]. discriminate.
    + destruct (done_at cn 1); [intros [= <-]; now_out|]. destruct (memb _ _); [intros [= <-]; now_out|].
      destruct (append_accepted _ _ _ _); intros [= <-]; now_out.
    + destruct (seq_of 0 _); intros [= <-]; now_out.
  - split; [|intros ->; destruct o; discriminate H]. revert H.
    destruct p, o as [ex s evs cn|ex s cn|g|g ts|m s|s cn]; cbn [es_fail]; try discriminate; try (intros [= <-]; now_out).
    destruct ex as [x|]; [|discriminate]. destruct evs as [|e evs]; [discriminate|]. intros [= <-].
    apply (check_moved j i (mk_escall (OpSave (Some x) s (e :: evs) cn) XNew)). reflexivity.
  - split; [|intros ->; destruct o; discriminate H]. revert H.
    destruct p, o as [ex s evs cn|ex s cn|g|g ts|m s|s cn]; cbn [es_lost]; try discriminate.
    + destruct (memb _ _); [discriminate|]. destruct (_ =? _); [|discriminate]. intros [= <-]; now_out.
    + destruct (memb _ _); [discriminate|]. destruct (append_accepted _ _ _ _); [|discriminate]. intros [= <-]; now_out.
Qed.

Lemma frame j prefix recdel k lb k' i c : xstep j prefix recdel k lb = Some k' -> ~ request_of i lb ->
  nth_error (x_calls k) i = Some c ->
  (exists p, nth_error (x_calls k') i = Some (mk_escall (es_op c) p) /\ (p = es_pc c \/ p = XDone))
  /\ forall x, In (Ret i x) (x_hist k') -> In (Ret i x) (x_hist k).
Proof.
  intros H R Hc.
  assert (Own : forall i', request_of i' lb -> i' <> i -> (exists p, nth_error (x_calls k') i = Some (mk_escall (es_op c) p) /\ (p = es_pc c \/ p = XDone))
          /\ forall x, In (Ret i x) (x_hist k') -> In (Ret i x) (x_hist k)).
  { intros i' R' N. destruct (nth_error (x_calls k) i') as [c'|] eqn:Hc'.
    2:{ destruct lb; cbn in R'; try contradiction; subst; cbn [xstep] in H; rewrite Hc' in H; discriminate. }
    destruct (own_request _ _ _ _ _ _ _ _ H R' Hc') as [[p _ _ Ec Eh _|x Ec Eh _ _] _]; rewrite Ec, Eh, (nth_upd _ _ _ _ _ Hc').
    - destruct (Nat.eqb_spec i i'); [congruence|]. split; [exists (es_pc c); split; [destruct c; exact Hc|auto]|auto].
    - destruct (Nat.eqb_spec i i'); [congruence|]. split; [exists (es_pc c); split; [destruct c; exact Hc|auto]|].
      intros y Hy. apply in_snoc in Hy as [Hy|[= E _]]; [auto|congruence]. }
  destruct lb as [o|i' gaps|i' n|i' gaps| | |sn ty r gap|]; cbn [request_of] in *;
    try (apply (Own i' eq_refl); congruence); clear Own; cbn [xstep] in H.
  - injection H as <-. cbn [x_calls x_hist]. split.
    + exists (es_pc c). split; [|auto]. rewrite nth_error_app1 by (apply nth_error_Some; congruence). destruct c; exact Hc.
    + intros x Hx. apply in_snoc in Hx as [Hx|Hx]; [auto|discriminate].
  - assert (E : x_calls k' = x_calls k /\ x_hist k' = x_hist k).
    { revert H. unfold es_deliver. destruct (x_sub k) as [q|]; [|discriminate]. destruct (nth_error (x_log k) q) as [e|]; [|discriminate].
      destruct (internal e); [intros [= <-]; auto|]. destruct (negb _); [intros [= <-]; auto|]. destruct (record_from j e); intros [= <-]; auto. }
    destruct E as [-> ->]. split; [exists (es_pc c); split; [destruct c; exact Hc|auto]|auto].
  - injection H as <-. cbn. split; [exists (es_pc c); split; [destruct c; exact Hc|auto]|auto].
  - destruct (memb _ _); [discriminate|]. injection H as <-. cbn. split; [exists (es_pc c); split; [destruct c; exact Hc|auto]|auto].
  - injection H as <-. cbn. split; [|auto]. exists XDone. split; [|auto]. rewrite nth_error_map, Hc. reflexivity.
Qed.
Lemma request_dec i lb : request_of i lb \/ ~ request_of i lb.
Proof. destruct lb as [o|i' g|i' n|i' g| | |a b c d|]; cbn; auto; destruct (Nat.eq_dec i' i); auto. Qed.

(** An answered call does not go on. *)
Definition answered (k : esconf) : Prop :=
  forall i x c, In (Ret i x) (x_hist k) -> nth_error (x_calls k) i = Some c -> es_pc c = XDone.
Lemma answered_run j prefix recdel : forall ls k k', good j prefix k -> answered k -> xrun j prefix recdel k ls = Some k' -> answered k'.
Proof.
  induction ls as [|lb ls IH]; intros k k' G A; cbn [xrun]; [intros [= <-]; exact A|].
  destruct (xstep j prefix recdel k lb) as [k1|] eqn:E; [|discriminate].
  pose proof (good_step _ _ _ _ _ _ G E) as G1. apply IH; [exact G1|]. intros i x c Hr Hc.
  assert (H0 : (exists c0, nth_error (x_calls k) i = Some c0) \/ nth_error (x_calls k) i = None) by (destruct (nth_error (x_calls k) i); eauto).
  destruct H0 as [(c0 & Hc0)|Hn].
  - destruct (request_dec i lb) as [R|R].
    + destruct (own_request _ _ _ _ _ _ _ _ E R Hc0) as [[p _ _ Ec Eh _|y Ec Eh _ _] Nd].
      * rewrite Eh in Hr. now specialize (A i x c0 Hr Hc0).
      * rewrite Ec, (nth_upd _ _ _ _ _ Hc0), Nat.eqb_refl in Hc. now injection Hc as <-.
    + destruct (frame _ _ _ _ _ _ _ _ E R Hc0) as [(p & Hp & Ho) Hx]. rewrite Hp in Hc. injection Hc as <-. cbn.
      destruct Ho as [->|]; auto. exact (A i x c0 (Hx x Hr) Hc0).
  - destruct (step_ret _ _ _ _ _ _ _ _ E Hr) as [Hr0|(c0 & Hc0 & _)]; [|congruence].
    destruct (i_ret _ _ _ G _ _ Hr0) as (c0 & Hc0 & _). congruence.
Qed.

(** A call that has changed the store will not be told that it was cancelled. *)
Definition acted (i : nat) (k : esconf) : Prop :=
  (exists c, nth_error (x_calls k) i = Some c /\ (es_pc c = XMark \/ es_pc c = XDone)) /\ ~ In (Ret i (OutFailed ECanceled)) (x_hist k).
Lemma acted_run j prefix recdel i : forall ls k k', acted i k -> xrun j prefix recdel k ls = Some k' -> acted i k'.
Proof.
  induction ls as [|lb ls IH]; intros k k' A; cbn [xrun]; [intros [= <-]; exact A|].
  destruct (xstep j prefix recdel k lb) as [k1|] eqn:E; [|discriminate]. apply IH. destruct A as [(c & Hc & Hp) Hn].
  destruct (request_dec i lb) as [R|R].
  - destruct (own_request _ _ _ _ _ _ _ _ E R Hc) as [[p _ Nm _ _ _|y Ec Eh _ Hm] Nd]; [tauto|].
    assert (Em : es_pc c = XMark) by tauto. specialize (Hm Em). subst y. split.
    + eexists. rewrite Ec, (nth_upd _ _ _ _ _ Hc), Nat.eqb_refl. split; [reflexivity|]. right. reflexivity.
    + rewrite Eh. intros H. apply in_snoc in H as [H|H]; [auto|discriminate].
  - destruct (frame _ _ _ _ _ _ _ _ E R Hc) as [(p & Hp' & Ho) Hx]. split; [|auto].
    eexists. split; [exact Hp'|]. cbn. destruct Ho as [->| ->]; auto.
Qed.

(** C99: a call told that it was cancelled has done nothing, however long its context was
    still open: in every run, none of its requests changed the log, the tombstones or what
    the process remembers, except one whose answer was lost. *)
Theorem C99_eventstore_cancelled_did_nothing_partial : forall j prefix recdel before lb after a b k i,
  xrun j prefix recdel es_start before = Some a -> xstep j prefix recdel a lb = Some b -> request_of i lb -> ~ unanswered lb ->
  xrun j prefix recdel b after = Some k -> In (Ret i (OutFailed ECanceled)) (x_hist k) ->
  x_log b = x_log a /\ x_tomb b = x_tomb a /\ x_del b = x_del a.
Proof.
  intros j prefix recdel before lb after a b k i Ha Hb R Nu Hk Hr.
  assert (Hc : exists c, nth_error (x_calls a) i = Some c).
  { destruct lb; cbn in R; try contradiction; subst; cbn [xstep] in Hb; destruct (nth_error (x_calls a) i); try discriminate; eauto. }
  destruct Hc as (c & Hc).
  pose proof (good_run _ _ _ _ _ _ (good_start _ _) Ha) as G.
  assert (A : answered a) by (apply (answered_run j prefix recdel before es_start a (good_start _ _)); [intros ? ? ? []|exact Ha]).
  destruct (own_request _ _ _ _ _ _ _ _ Hb R Hc) as [M Nd].
  assert (Na : forall x, ~ In (Ret i x) (x_hist a)) by (intros x Hx; exact (Nd (A i x c Hx Hc))).
  destruct M as [p _ _ Ec Eh S|x Ec Eh S _]; destruct S as [S|S]; try exact S; exfalso; [|destruct S as [S|S]; [|exact (Nu S)]].
  - subst p. refine (proj2 (acted_run j prefix recdel i after b k _ Hk) Hr). split.
    + eexists. rewrite Ec, (nth_upd _ _ _ _ _ Hc), Nat.eqb_refl. split; [reflexivity|]. left. reflexivity.
    + rewrite Eh. apply Na.
  - refine (proj2 (acted_run j prefix recdel i after b k _ Hk) Hr). split.
    + eexists. rewrite Ec, (nth_upd _ _ _ _ _ Hc), Nat.eqb_refl. split; [reflexivity|]. right. reflexivity.
    + rewrite Eh. intros H. apply in_snoc in H as [H|H]; [exact (Na _ H)|congruence].
Qed.
Print Assumptions C99_eventstore_cancelled_did_nothing_partial.

(** Missing, because it is false: a save or delete whose context is done while its request
    is under way is told that it was cancelled, although the server may have executed it. *)
Theorem C99_eventstore_in_flight_refuted : forall j prefix recdel s e, sendable j [e] ->
  exists ls k, xrun j prefix recdel es_start ls = Some k
    /\ x_hist k = [Inv 0 (OpSave None s [e] (Some 2%nat)); Ret 0 (OutFailed ECanceled);
                   Inv 1 (OpDelete 1 s (Some 1%nat)); Ret 1 (OutFailed ECanceled)]
    /\ map en_stream (x_log k) = [server_name prefix s] /\ x_tomb k = [server_name prefix s].
Proof.
  intros j prefix recdel s e (t & i & Hs).
  assert (Ea : ev_atype e = t /\ ev_aid e = i) by (inversion Hs; tauto). destruct Ea as [<- <-].
  assert (Ep : exists r, propose j s (ev_atype e) (ev_aid e) [e] = inr [r]).
  { destruct (propose_sendable j s _ _ _ Hs) as (rs & E). pose proof E as E'. cbn [propose] in E'.
    destruct (_ && _); [discriminate|]. destruct (_ && _); [discriminate|]. destruct (j_meta j e), (j_data j e); try discriminate.
    injection E' as <-. eauto. }
  destruct Ep as (r & Ep).
  exists [XInvoke (OpSave None s [e] (Some 2%nat)); XStep 0 []; XLost 0 []; XInvoke (OpDelete 1 s (Some 1%nat)); XLost 1 []].
  cbn [xrun xstep es_start x_calls app nth_error es_op es_pc es_step length]. cbn [done_at Nat.leb]. unfold after_check. rewrite Ep.
  cbn. unfold revisions, events_of. cbn. rewrite String.eqb_refl. cbn. eexists. repeat split; reflexivity.
Qed.
Print Assumptions C99_eventstore_in_flight_refuted.

(** Non-vacuity: one stream holding an event, and then
    - a save whose context is done before the call (told so),
    - a save whose context is done between the check and the append (told so),
    - a save expecting 1 whose context is done before the call (told of a conflict with 0),
    - a save without cancellation (stored). *)
Definition cancelled_run : list xlabel :=
  [XInvoke (esave None "a" ["x"])] ++ do 0 2
  ++ [XInvoke (OpSave None "a" [eev "e" "y"] (Some O))] ++ do 1 2
  ++ [XInvoke (OpSave (Some 1) "a" [eev "e" "z"] (Some 1%nat))] ++ do 2 2
  ++ [XInvoke (OpSave (Some 1) "a" [eev "e" "z"] (Some O))] ++ do 3 1
  ++ [XInvoke (esave (Some 1) "a" ["w"])] ++ do 4 2.
Example C99_eventstore_inhabited :
  filter (fun h => match h with Ret _ _ => true | _ => false end) (x_hist (erun true cancelled_run))
  = [Ret 0 (OutSaved 1 []); Ret 1 (OutFailed ECanceled); Ret 2 (OutFailed ECanceled); Ret 3 (OutFailed (EUnexpectedSeq 1 0)); Ret 4 (OutSaved 2 [])]
  /\ length (x_log (erun true cancelled_run)) = 2%nat
  /\ sendable es_json [eev "e" "y"] /\ with_context (Some O) (OpSave None "a" [eev "e" "y"] (Some O)).
Proof.
  split; [vm_compute; reflexivity|]. split; [vm_compute; reflexivity|]. split; [|constructor].
  exists "t", "i". constructor; [|constructor]. repeat split; discriminate.
Qed.

(** ** The number in a conflict *)
Lemma seq_of_last : forall l n0 n, seq_of n0 l = inr n -> exists rs, l = map RRec rs /\ n = last (map r_ssn rs) n0.
Proof.
  induction l as [|[r|e] l IH]; intros n0 n; cbn [seq_of]; [intros [= <-]; exists []; auto| |discriminate].
  intros H. destruct (IH _ _ H) as (rs & -> & ->). exists (r :: rs). split; [reflexivity|]. cbn [map].
  destruct rs as [|r' rs]; [reflexivity|]. cbn [map]. change (last (r_ssn r :: r_ssn r' :: map r_ssn rs) n0) with (last (r_ssn r' :: map r_ssn rs) n0).
  generalize (map r_ssn rs) (r_ssn r'). clear. induction l as [|a l IH]; intros b; [reflexivity|]. exact (IH a).
Qed.
Lemma loop_not_empty j prefix s n : forall es, stream_loop j prefix s n 0 es <> [].
Proof.
  induction es as [|e es IH]; cbn [stream_loop]; [discriminate|]. destruct (internal e); [exact IH|]. destruct (negb _); [exact IH|].
  destruct (record_from j e); [|discriminate]. destruct (negb _); [exact IH|]. destruct (_ <? _); [exact IH|discriminate].
Qed.
Lemma read_not_empty j prefix log tomb s n : read_stream j prefix log tomb s n <> [].
Proof. unfold read_stream. destruct (memb _ _); [discriminate|]. destruct (events_of _ _); [discriminate|]. apply loop_not_empty. Qed.
Lemma read_one_based j prefix log tomb s n r : In (RRec r) (read_stream j prefix log tomb s n) -> r_ssn r <> 0.
Proof.
  unfold read_stream. destruct (memb _ _); [intros [H|[]]; discriminate|]. destruct (events_of _ _); [intros [H|[]]; discriminate|].
  intros H. apply stream_loop_in in H as (_ & _ & e0 & _ & H). apply record_from_nums in H as [_ H]. lia.
Qed.

Lemma propose_no_conflict j s x n : forall evs t i, propose j s t i evs <> inl (EUnexpectedSeq x n).
Proof.
  induction evs as [|e evs IH]; intros t i; cbn [propose]; [discriminate|].
  destruct (_ && _); [discriminate|]. destruct (_ && _); [discriminate|].
  destruct (j_meta j e), (j_data j e); try discriminate.
  specialize (IH (ev_atype e) (ev_aid e)). destruct (propose _ _ _ _ evs); congruence.
Qed.
Lemma loop_no_conflict j prefix s m x n : forall es t, ~ In (RErr (EUnexpectedSeq x n)) (stream_loop j prefix s m t es).
Proof.
  induction es as [|e es IH]; intros t; cbn [stream_loop]; [destruct t; cbn; intuition discriminate|].
  destruct (internal e); [apply IH|]. destruct (negb _); [apply IH|]. destruct (record_from j e); [|cbn; intuition discriminate].
  destruct (negb _); [apply IH|]. destruct (_ <? _); [apply IH|]. intros [H|H]; [discriminate|]. exact (IH _ H).
Qed.
Lemma read_no_conflict j prefix log tomb s m x n : ~ In (RErr (EUnexpectedSeq x n)) (read_stream j prefix log tomb s m).
Proof.
  unfold read_stream. destruct (memb _ _); [cbn; intuition discriminate|].
  destruct (events_of _ _); [cbn; intuition discriminate|]. apply loop_no_conflict.
Qed.

(** What EventsByStream from the start shows at a moment. *)
Definition shown_now (j : jlib) (prefix : option string) (recdel : bool) (k : esconf) (s : string) (l : list result) : Prop :=
  exists k', xrun j prefix recdel k [XInvoke (OpByStream 0 s); XStep (length (x_calls k)) []] = Some k'
    /\ x_hist k' = x_hist k ++ [Inv (length (x_calls k)) (OpByStream 0 s); Ret (length (x_calls k)) (OutResults l)].
Lemma shown j prefix recdel k s : shown_now j prefix recdel k s (read_stream j prefix (x_log k) (x_tomb k) s 0).
Proof.
  unfold shown_now. cbn [xrun xstep x_calls]. rewrite nth_error_app2, Nat.sub_diag by auto. cbn [nth_error es_op es_pc es_step xreply x_hist x_log x_tomb].
  eexists. split; [reflexivity|]. cbn [xreply set_xcall x_hist]. rewrite <- app_assoc. reflexivity.
Qed.

(** C33: a conflict reports the number of the last record the stream shows at that moment.
    A save may report 0 instead (C33_failed_check_admits_save_refuted tells when), a delete
    never does. *)
Theorem C33_conflict_tells_the_last_number : forall j prefix recdel k k' i gaps o p x n,
  nth_error (x_calls k) i = Some (mk_escall o p) -> xstep j prefix recdel k (XStep i gaps) = Some k' ->
  x_hist k' = x_hist k ++ [Ret i (OutFailed (EUnexpectedSeq x n))] ->
  (n <> 0 \/ exists e s cn, o = OpDelete e s cn) ->
  exists s rs r, match o with OpSave _ s' _ _ | OpDelete _ s' _ => s' = s | _ => False end
    /\ shown_now j prefix recdel k s (map RRec (rs ++ [r])) /\ r_ssn r = n /\ n <> 0.
Proof.
  intros j prefix recdel k k' i gaps o p x n Hc Hs Hh Hn.
  assert (Rd : forall s, seq_of 0 (read_stream j prefix (x_log k) (x_tomb k) s 0) = inr n ->
           exists rs r, shown_now j prefix recdel k s (map RRec (rs ++ [r])) /\ r_ssn r = n /\ n <> 0).
  { intros s H. apply seq_of_last in H as (rs & E & ->). pose proof (shown j prefix recdel k s) as Sh. rewrite E in Sh.
    destruct rs as [|r rs _] using rev_ind; [exfalso; exact (read_not_empty j prefix (x_log k) (x_tomb k) s 0 E)|].
    exists rs, r. split; [exact Sh|]. rewrite map_app. cbn [map]. rewrite last_last. split; [reflexivity|].
    apply (read_one_based j prefix (x_log k) (x_tomb k) s 0). rewrite E, map_app. apply in_or_app. right. left. reflexivity. }
  assert (Un : forall y, x_hist k ++ [Ret i y] = x_hist k ++ [Ret i (OutFailed (EUnexpectedSeq x n))] -> y = OutFailed (EUnexpectedSeq x n)).
  { intros y E. apply app_inv_head in E. now injection E. }
  assert (No : forall l : list act, x_hist k = x_hist k ++ l -> l = []).
  { intros l E. rewrite <- (app_nil_r (x_hist k)) in E at 1. apply app_inv_head in E. auto. }
  cbn [xstep] in Hs. rewrite Hc in Hs. cbn [es_op es_pc] in Hs. revert Hs.
  destruct p, o as [ex s evs cn|ex s cn|g|g ts|m s|s cn]; cbn [es_step]; try discriminate.
  - destruct evs as [|e evs]; intros [= <-]; [apply Un in Hh; discriminate|]. revert Hh. unfold after_check.
    set (q := if done_at cn 0 then 0 else _).
    destruct ex as [y|].
    + destruct (y =? q).
      * destruct (propose _ _ _ _ _) as [er|rs] eqn:Ep; intros Hh; [apply Un in Hh|apply No in Hh; discriminate].
        injection Hh as ->. exfalso. exact (propose_no_conflict _ _ _ _ _ _ _ Ep).
      * intros Hh. apply Un in Hh. injection Hh as <- Hq. destruct Hn as [Hn|(? & ? & ? & [=])].
        unfold q in Hq. destruct (done_at cn 0); [congruence|]. destruct (seq_of 0 _) eqn:Eq; [congruence|]. subst n0.
        destruct (Rd s Eq) as (rs & r & A & B & C). exists s, rs, r. auto.
    + destruct (propose _ _ _ _ _) as [er|rs] eqn:Ep; intros Hh; [apply Un in Hh|apply No in Hh; discriminate].
      injection Hh as ->. exfalso. exact (propose_no_conflict _ _ _ _ _ _ _ Ep).
  - destruct (done_at cn 0); [intros [= <-]; apply Un in Hh; discriminate|]. destruct (memb _ _); [intros [= <-]; apply Un in Hh; discriminate|].
    destruct (_ =? _); [destruct recdel|]; intros [= <-]; cbn in Hh; [apply No in Hh|apply Un in Hh|apply No in Hh]; discriminate.
  - intros [= <-]. apply Un in Hh. discriminate.
  - intros [= <-]. apply Un in Hh. discriminate.
  - intros [= <-]. apply Un in Hh. discriminate.
  - intros [= <-]. apply Un in Hh. destruct (done_at cn 0); discriminate.
  - destruct (done_at cn 1); [intros [= <-]; apply Un in Hh; discriminate|]. destruct (memb _ _); [intros [= <-]; apply Un in Hh; discriminate|].
    destruct (append_accepted _ _ _ _); intros [= <-]; cbn in Hh; apply Un in Hh; [discriminate|]. injection Hh as _ <-.
    destruct Hn as [Hn|(? & ? & ? & [=])]. congruence.
  - destruct (done_at cn 1); cbn [seq_of]; [intros [= <-]; apply Un in Hh; discriminate|].
    destruct (seq_of 0 _) as [er|n0] eqn:Eq; intros [= <-]; apply Un in Hh; injection Hh.
    + intros ->. apply seq_of_err in Eq. exfalso. exact (read_no_conflict _ _ _ _ _ _ _ _ Eq).
    + intros <- _. destruct (Rd s Eq) as (rs & r & A & B & C). exists s, rs, r. auto.
  - intros [= <-]. cbn in Hh. apply Un in Hh. discriminate.
Qed.
Print Assumptions C33_conflict_tells_the_last_number.

(** Non-vacuity: a stream whose first event is one of the server's own and is not shown;
    the conflict still tells the number 2. *)
Example C33_conflict_inhabited :
  let ls := [XForeign "v1-a" "$x" None 0; XInvoke (esave None "a" ["x"])] ++ do 0 2 ++ [XInvoke (OpDelete 7 "a" None)] ++ do 1 2 in
  In (Ret 1 (OutFailed (EUnexpectedSeq 7 2))) (x_hist (erun true ls)).
Proof. vm_compute. tauto. Qed.
