(** C110 through gRPC: a conflict tells the remote caller the number to retry with. *)
From Coq Require Import PeanoNat.
From Verif Require Import Base Core CoreSpec LogSpec StoreSpec ToyCodec InMemory InMemoryProofs LogProofs Properties_InMemory
  DecText Text Remote RemoteSpec RemoteProofs Properties_Remote Properties_Retry.
Open Scope string_scope.
Open Scope list_scope.
Open Scope N_scope.

Lemma pack_length marshal evs : forall t i ps, pack marshal t i evs = inr ps -> length ps = length evs.
Proof.
  induction evs as [|e evs IH]; intros t i ps H; cbn [pack] in H; [injection H as <-; reflexivity|].
  destruct (_ && _); [discriminate|]. destruct (_ && _); [discriminate|]. destruct (marshal e); [discriminate|].
  destruct (pack marshal (ev_atype e) (ev_aid e) evs) as [|ps'] eqn:E; [discriminate|]. injection H as <-. cbn. f_equal. eauto.
Qed.
Lemma unpack_length unmarshal ps : forall vs, unpack unmarshal ps = inr vs -> length vs = length ps.
Proof.
  induction ps as [|e ps IH]; intros vs H; cbn [unpack] in H; [injection H as <-; reflexivity|].
  destruct (unmarshal e); [discriminate|]. destruct (unpack unmarshal ps) eqn:E; [discriminate|]. injection H as <-. cbn. f_equal. eauto.
Qed.

(** [vs] is what the server makes of the events [evs] of the request.  An OptimisticSave
    through the remote store, refused with UnexpectedSequenceNumber{x, n} and made again
    with n, succeeds - [t] events in the stream, a number that fits into 64 bits. *)
Theorem C110_save_remote : forall detail wire unwire marshal unmarshal c ops x s evs ps vs n t, codec_ok c -> Forall (tame_call c) ops ->
  pack marshal "" "" evs = inr ps -> unpack unmarshal ps = inr vs -> one_aggregate vs -> encodable c s vs ->
  snd (mem_step c (mem_after c ops) (OpTotal s None)) = OutTotal t -> t < 2 ^ 64 -> x < 2 ^ 64 ->
  let call := remote_step detail wire unwire mem (mem_step c) marshal unmarshal in
  let (m', answer) := call (mem_after c ops) (OpSave (Some x) s evs None) in
  answer = CFailed (CErr (EUnexpectedSeq x n)) ->
  n = t /\ snd (call m' (OpSave (Some n) s evs None)) = CSaved (n + N.of_nat (length evs)).
Proof.
  intros detail wire unwire marshal unmarshal c ops x s evs ps vs n t Hc Ht Hp Hu Hone Henc Etot Hb Hx. cbn zeta.
  destruct (run_tame c Hc ops mem_init empty_log (R_init c) Ht) as (L & HR). fold (mem_after c ops) in HR.
  set (m := mem_after c ops) in *. rewrite (save_total c m L s _ HR eq_refl) in Etot. cbn [snd] in Etot. injection Etot as <-.
  destruct (remote_step detail wire unwire mem (mem_step c) marshal unmarshal m (OpSave (Some x) s evs None)) as [m' answer] eqn:E. intros ->.
  destruct evs as [|e0 evs]; [discriminate E|]. pose proof (pack_length _ _ _ _ _ Hp) as Lp. pose proof (unpack_length _ _ _ Hu) as Lu.
  destruct vs as [|v0 vs]; [exfalso; rewrite <- Lu in Lp; discriminate Lp|].
  cbn [remote_step] in *. rewrite Hp in *. cbn [done_at] in *. rewrite Hu in *.
  destruct (N.eq_dec x (stream_length s L)) as [->|Nx].
  { destruct (save_succeeds c m L (Some (stream_length s L)) s (v0 :: vs)) as (m1 & E1 & _); auto; [discriminate|].
    rewrite E1 in E. discriminate. }
  destruct (save_mismatch c m L s x v0 vs None HR eq_refl Nx) as (m1 & E1 & HR').
  assert (E2 : mem_step c m (OpSave (Some x) s (v0 :: vs) None) = (m1, OutFailed (EUnexpectedSeq x (stream_length s L))))
    by (cbn [mem_step]; rewrite (R_locked _ _ _ HR); exact E1).
  rewrite E2, save_conflict in E by assumption. injection E as <- <-. split; [reflexivity|].
  destruct (save_succeeds c m1 L (Some (stream_length s L)) s (v0 :: vs)) as (m2 & E3 & _); auto; [discriminate|].
  rewrite E3. cbn [snd]. do 2 f_equal. rewrite <- Lp, Lu. reflexivity.
Qed.
Print Assumptions C110_save_remote.

(** The same for OptimisticDeleteStream, as long as no other error's text holds the words
    "unexpected sequence number". *)
Theorem C110_delete_remote_partial : forall detail wire unwire marshal unmarshal c ops x s n t, codec_ok c -> Forall (tame_call c) ops ->
  (forall er, contains "unexpected sequence number" (detail er) = false) ->
  snd (mem_step c (mem_after c ops) (OpTotal s None)) = OutTotal t -> t < 2 ^ 64 -> x < 2 ^ 64 ->
  let call := remote_step detail wire unwire mem (mem_step c) marshal unmarshal in
  let (m', answer) := call (mem_after c ops) (OpDelete x s None) in
  answer = CFailed (CErr (EUnexpectedSeq x n)) ->
  n = t /\ snd (call m' (OpDelete n s None)) = CDeleted.
Proof.
  intros detail wire unwire marshal unmarshal c ops x s n t Hc Ht Hd Etot Hb Hx. cbn zeta.
  destruct (run_tame c Hc ops mem_init empty_log (R_init c) Ht) as (L & HR). fold (mem_after c ops) in HR.
  pose proof (C110_delete_in_memory c ops x s) as D.
  rewrite (save_total c _ L s _ HR eq_refl) in Etot. cbn [snd] in Etot. injection Etot as <-.
  cbn [remote_step done_at].
  destruct (mem_step c (mem_after c ops) (OpDelete x s None)) as [m1 y] eqn:E. intros H.
  destruct y; try discriminate. injection H as H.
  destruct (classify e) as [(p & q & ->)|Hn].
  - assert (p = x /\ q = stream_length s L) as [-> ->].
    { cbn [mem_step] in E. rewrite (R_locked _ _ _ HR) in E. unfold mem_delete in E. cbn [done_at] in E.
      destruct (m_streams (mem_after c ops) s) as [ids|]; [|discriminate]. rewrite (stream_number c _ L) in E by auto.
      destruct (negb _); [injection E as _ <- <-; auto|]. destruct (delete_loop (mem_after c ops) ids); discriminate. }
    rewrite delete_conflict in H by assumption. injection H as <-. split; [reflexivity|].
    specialize (D (stream_length s L) Hc Ht eq_refl). destruct (mem_step c m1 (OpDelete (stream_length s L) s None)) as [m2 z].
    cbn [snd] in *. now rewrite D.
  - exfalso. revert H. apply delete_quiet, foreign_quiet; assumption.
Qed.
Print Assumptions C110_delete_remote_partial.

(** Non-vacuity: two clients race to the number 1. *)
Example C110_remote_inhabited :
  let m := fst (rmem (fst (rmem mem_init (OpSave None "thing!x" [thing "a"] None))) (OpSave (Some 1) "thing!x" [thing "b"] None)) in
  m = mem_after toy [OpSave None "thing!x" [thing "a"] None; OpSave (Some 1) "thing!x" [thing "b"] None]
  /\ snd (mem_step toy m (OpTotal "thing!x" None)) = OutTotal 2
  /\ snd (rmem m (OpSave (Some 1) "thing!x" [thing "c"; thing "d"] None)) = CFailed (CErr (EUnexpectedSeq 1 2))
  /\ snd (rmem m (OpSave (Some 2) "thing!x" [thing "c"; thing "d"] None)) = CSaved 4
  /\ snd (rmem m (OpDelete 1 "thing!x" None)) = CFailed (CErr (EUnexpectedSeq 1 2))
  /\ snd (rmem m (OpDelete 2 "thing!x" None)) = CDeleted.
Proof. split; [reflexivity|]. repeat split; vm_compute; reflexivity. Qed.
