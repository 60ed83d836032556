(** C110 for PostgreSQL while calls overlap: the number a conflict tells was that of the
    stream at a moment when the call was under way. *)
From Coq Require Import PeanoNat Sorted.
From Verif Require Import Base LogSpec StoreSpec Locks LocksSpec Postgres PostgresSpec PostgresProofs PostgresStream PostgresAck PostgresFacts PostgresSeq
  Properties_Postgres Properties_Stays Properties_StaysPg.
Open Scope string_scope.
Open Scope list_scope.
Open Scope N_scope.

(** In every run - any interleaving, failing statements, lost confirmations, restarts,
    deletes - a call [b] answered with UnexpectedSequenceNumber{p, q} expected [p], which
    was wrong: at some moment [k], after [b] was made and before it was answered, [q] was the
    largest number stored of its stream. *)
Theorem C110_postgres_overlapping_partial : forall j key limit ls k' b s o p q,
  grun j key limit pg_start ls = Some k' -> In (Inv b o) (g_hist k') -> In (Ret b (OutFailed (EUnexpectedSeq p q))) (g_hist k') ->
  (exists evs cn ex, o = OpSave ex s evs cn) \/ (exists ex cn, o = OpDelete ex s cn) ->
  expects s p o /\ p <> q
  /\ exists ls1 ls2 k, ls = ls1 ++ ls2 /\ grun j key limit pg_start ls1 = Some k /\ grun j key limit k ls2 = Some k'
       /\ In (Inv b o) (g_hist k) /\ (forall x, ~ In (Ret b x) (g_hist k)) /\ q = fold_right N.max 0 (map r_ssn (rows_of s (g_rows k))).
Proof.
  intros j key limit ls k' b s o p q E Ib Rb Ho.
  destruct (find_step j key limit b p q ls pg_start k' E Rb (fun x => x)) as (la & lb & lc & ka & kb & A0 & A1 & A2 & A3 & A4 & A5).
  destruct (conflict_step j key limit ka lb kb b p q A2 A5 A4) as (_ & o' & c & (Hc & Nd) & H1 & H2).
  assert (Eab : grun j key limit ka (lb :: lc) = Some k') by (cbn; rewrite A2; exact A3). destruct (hist_run j key limit _ _ _ Eab) as (h & Eh).
  pose proof (same_call _ _ _ _ _ _ _ (told_run _ _ _ _ _ A1) (told_run _ _ _ _ _ E) Eh Hc Ib) as ->.
  assert (M : expects s p o /\ q = max_ssn s (g_rows ka) /\ p <> q).
  { destruct Ho as [(evs & cn & ex & Eo)|(ex & cn & Eo)].
    - destruct (H1 _ _ _ _ Eo) as (-> & -> & Hne). rewrite Eo. split; [constructor|auto].
    - destruct (H2 _ _ _ Eo) as (-> & -> & Hne & _). rewrite Eo. split; [constructor|auto]. }
  destruct M as (M1 & M2 & M3). split; [exact M1|]. split; [exact M3|]. exists la, (lb :: lc), ka. split; [exact A0|]. split; [exact A1|]. split; [exact Eab|].
  split; [exact (t_call _ (told_run _ _ _ _ _ A1) _ _ _ Hc)|]. split; [|now rewrite M2, max_of_rows].
  intros x Hx. destruct (t_ret _ (told_run _ _ _ _ _ A1) _ _ Hx) as (o2 & d & Hd). rewrite Hc in Hd. injection Hd as _ ->. exact (Nd d eq_refl).
Qed.
Print Assumptions C110_postgres_overlapping_partial.

(** Non-vacuity: a save and a delete, both wrong, one after the other with a race between
    two writers before them. *)
Definition both_wrong : list plabel :=
  learned ++ racing ++ [GInvoke (OpDelete 7 "s" None)] ++ steps 3 2.
Example C110_postgres_overlapping_inhabited : exists k before,
  grun toy_json fnv32a 10 pg_start both_wrong = Some k
  /\ g_hist k = before ++ [Inv 2 (save (Some 1) "s" ["c"]); Ret 2 (OutFailed (EUnexpectedSeq 1 2)); Inv 3 (OpDelete 7 "s" None); Ret 3 (OutFailed (EUnexpectedSeq 7 2))].
Proof. eexists. exists (firstn 3 (g_hist (the_run both_wrong))). split; vm_compute; reflexivity. Qed.
