(** C57: a call to the in-memory or the LevelDB store ends once. *)
From Coq Require Import PeanoNat.
From Verif Require Import Base Core LogSpec StoreSpec ToyCodec InMemory LevelDB LevelDBSpec Locks LocksSpec LocksProofs LocksLive LocksStores Properties_Locks.
Open Scope string_scope.
Open Scope list_scope.
Open Scope N_scope.

(** [a] ends call [i]: with an answer, or because its reader's context was cancelled. *)
Definition ends (i : nat) (a : act) : Prop := exists x, a = Ret i x \/ a = Cut i x.

Section Once.
Context {S L Q R : Type} (ob : obj S L Q R).

Lemma kshape k lb k' : kstep ob k lb = Some k' ->
  (length (k_calls k') = length (k_calls k)
   /\ (k_hist k' = k_hist k \/ exists i o p a, nth_error (k_calls k) i = Some (mk_call o p) /\ p <> CDone /\ k_hist k' = k_hist k ++ [a] /\ ends i a))
  \/ exists o, length (k_calls k') = Datatypes.S (length (k_calls k)) /\ k_hist k' = k_hist k ++ [Inv (length (k_calls k)) o].
Proof.
  intros E. destruct lb as [o|i|i j|i j told]; cbn in E.
  - injection E as <-. right. exists o. cbn. rewrite app_length. cbn. split; [lia|reflexivity].
  - left. destruct (nth_error (k_calls k) i) as [[o p]|] eqn:Hn; [|discriminate]. unfold step_call in E. cbn [c_op c_pc] in E.
    assert (Same : forall q k0, length (k_calls k0) = length (k_calls k) -> k_hist k0 = k_hist k -> k' = set_pc i o q k0 ->
      length (k_calls k') = length (k_calls k) /\ (k_hist k' = k_hist k \/ exists i o p a, nth_error (k_calls k) i = Some (mk_call o p) /\ p <> CDone /\ k_hist k' = k_hist k ++ [a] /\ ends i a)).
    { intros q k0 El Eh ->. cbn. rewrite upd_length. auto. }
    assert (End : forall a, p <> CDone -> ends i a -> k' = note a (set_pc i o CDone k) ->
      length (k_calls k') = length (k_calls k) /\ (k_hist k' = k_hist k \/ exists i o p a, nth_error (k_calls k) i = Some (mk_call o p) /\ p <> CDone /\ k_hist k' = k_hist k ++ [a] /\ ends i a)).
    { intros a Np Ha ->. cbn. rewrite upd_length. split; [reflexivity|]. right. exists i, o, p, a. auto. }
    destruct p; try discriminate;
      repeat match type of E with
      | (if ?b then _ else _) = _ => destruct b eqn:?
      | match ?b with _ => _ end = _ => destruct b eqn:?
      end; try discriminate; injection E as <-;
      first [ eapply End; [discriminate| |reflexivity]; unfold ends; try (destruct (existsb was_cut subs)); eauto
            | eapply Same; [| |reflexivity]; cbn; rewrite ?map_length; reflexivity ].
  - left. destruct (nth_error (k_calls k) i) as [[o p]|] eqn:Hn; [|discriminate]. unfold step_sub in E. cbn [c_op c_pc] in E.
    repeat match type of E with
      | (if ?b then _ else _) = _ => destruct b eqn:?
      | match ?b with _ => _ end = _ => destruct b eqn:?
      end; try discriminate; injection E as <-; cbn; rewrite upd_length; auto.
  - left. destruct (nth_error (k_calls k) i) as [[o p]|] eqn:Hn; [|discriminate]. unfold cancel_sub in E. cbn [c_op c_pc] in E.
    repeat match type of E with
      | (if ?b then _ else _) = _ => destruct b eqn:?
      | match ?b with _ => _ end = _ => destruct b eqn:?
      end; try discriminate; injection E as <-; cbn; rewrite upd_length; auto.
Qed.

Definition finished (h : list act) : list nat := flat_map (fun a => match a with Ret i _ | Cut i _ => [i] | Inv _ _ => [] end) h.
Lemma finished_in i h : In i (finished h) <-> answered i h.
Proof.
  unfold finished, answered. rewrite in_flat_map. split.
  - intros ([ | | ] & Ha & Hi); cbn in Hi; try contradiction; destruct Hi as [<-|[]]; eauto.
  - intros (x & [H|H]); eexists; (split; [exact H|now left]).
Qed.
Record One (k : conf (S := S) (L := L) (Q := Q) (R := R)) : Prop := {
  one_done : H k;
  one_made : forall i, (i < length (k_calls k))%nat -> exists o, In (Inv i o) (k_hist k);
  one_once : NoDup (finished (k_hist k));
  one_after : forall h1 i a h2, k_hist k = h1 ++ a :: h2 -> ends i a -> exists o, In (Inv i o) h1
}.
Lemma One_step k lb k' : One k -> kstep ob k lb = Some k' -> One k'.
Proof.
  intros [H0 H1 H2 H3] E. assert (H0' : H k') by (eapply H_step; eauto).
  destruct (kshape _ _ _ E) as [(El & [Eh|(i & o & p & a & Hn & Np & Eh & Ha)])|(o & El & Eh)].
  - constructor; rewrite ?El, ?Eh; auto.
  - assert (Li : (i < length (k_calls k))%nat) by (apply nth_error_Some; congruence).
    assert (Nf : ~ In i (finished (k_hist k))). { intros F. apply finished_in in F. destruct (h_done _ H0 _ F) as (o' & Ho). congruence. }
    constructor; auto.
    + rewrite El, Eh. intros m Hm. destruct (H1 m Hm) as (om & Hom). exists om. apply in_or_app. now left.
    + rewrite Eh. unfold finished. rewrite flat_map_app. assert (Ea : flat_map (fun a => match a with Ret i _ | Cut i _ => [i] | Inv _ _ => [] end) [a] = [i]) by (destruct Ha as (x & [->| ->]); reflexivity).
      rewrite Ea. apply NoDup_Add with (a := i) (l := finished (k_hist k)); [|split; auto]. rewrite <- (app_nil_r (finished (k_hist k))) at 1. apply Add_app.
    + rewrite Eh. intros h1 m b h2 Es Hb. destruct (exists_last (l := b :: h2)) as (t & z & Ez); [discriminate|]. rewrite Ez, app_assoc in Es. apply app_inj_tail in Es as [Es <-].
      destruct t as [|b' t]; cbn in Ez.
      * injection Ez as -> ->. rewrite app_nil_r in Es. subst h1. assert (m = i) as ->; [|auto]. destruct Ha as (x & [->| ->]), Hb as (y & [Hb|Hb]); congruence.
      * injection Ez as <- _. eapply H3; eauto.
  - constructor; auto.
    + rewrite El, Eh. intros m Hm. destruct (Nat.eq_dec m (length (k_calls k))) as [->|Nm].
      * exists o. apply in_or_app. right. now left.
      * destruct (H1 m ltac:(lia)) as (om & Hom). exists om. apply in_or_app. now left.
    + rewrite Eh. unfold finished. rewrite flat_map_app. cbn. now rewrite app_nil_r.
    + rewrite Eh. intros h1 m b h2 Es Hb. destruct (exists_last (l := b :: h2)) as (t & z & Ez); [discriminate|]. rewrite Ez, app_assoc in Es. apply app_inj_tail in Es as [Es <-].
      destruct t as [|b' t]; cbn in Ez.
      * injection Ez as -> ->. destruct Hb as (y & [Hb|Hb]); discriminate.
      * injection Ez as <- _. eapply H3; eauto.
Qed.
Lemma One_run ls : forall k k', One k -> krun ob k ls = Some k' -> One k'.
Proof.
  induction ls as [|lb ls IH]; intros k k' O E; cbn in E; [now injection E as <-|].
  destruct (kstep ob k lb) as [k1|] eqn:E1; [|discriminate]. eapply IH; [|exact E]. eapply One_step; eauto.
Qed.
Lemma once_all s ls k h1 i a h2 : krun ob (start s) ls = Some k -> k_hist k = h1 ++ a :: h2 -> ends i a ->
  (exists o, In (Inv i o) h1) /\ ~ answered i (h1 ++ h2).
Proof.
  intros E Eh Ha. assert (O : One k).
  { eapply One_run; [|exact E]. constructor; [apply H_start|intros i0 Hi; cbn in Hi; lia|constructor|intros [|? ?] ? ? ? X; discriminate]. }
  split; [eapply one_after; eauto|]. pose proof (one_once _ O) as N. rewrite Eh in N. unfold finished in N. rewrite flat_map_app in N.
  assert (Ea : forall t, flat_map (fun a => match a with Ret i _ | Cut i _ => [i] | Inv _ _ => [] end) (a :: t) = i :: finished t) by (destruct Ha as (x & [->| ->]); reflexivity).
  rewrite Ea in N. apply NoDup_remove_2 in N. intros A. apply N. unfold finished. rewrite <- flat_map_app. now apply finished_in.
Qed.
End Once.

(** In every run of overlapping calls, any calls, what ends a call comes after the call
    and is the only thing that ends it. *)
Theorem C57_in_memory_answered_once : forall c ls k h1 i a h2,
  krun (mem_obj c) (start mem_init) ls = Some k -> k_hist k = h1 ++ a :: h2 -> ends i a ->
  (exists o, In (Inv i o) h1) /\ ~ answered i (h1 ++ h2).
Proof. intros c ls k h1 i a h2 E. eapply once_all; eauto. Qed.
Print Assumptions C57_in_memory_answered_once.

Theorem C57_leveldb_answered_once : forall c ls k h h1 i a h2,
  krun (ldb_obj c) (start h) ls = Some k -> k_hist k = h1 ++ a :: h2 -> ends i a ->
  (exists o, In (Inv i o) h1) /\ ~ answered i (h1 ++ h2).
Proof. intros c ls k h h1 i a h2 E. eapply once_all; eauto. Qed.
Print Assumptions C57_leveldb_answered_once.

(** Two writers and a reader that is cancelled between their answers. *)
Example C57_once_in_memory : exists k h1 ys h2,
  krun (mem_obj toy) (start mem_init) (busy 6 5 1) = Some k
  /\ k_hist k = h1 ++ Cut 1 (OutResults ys) :: h2 /\ ends 1 (Cut 1 (OutResults ys)) /\ length h1 = 4%nat /\ length h2 = 1%nat.
Proof.
  eexists _, [_; _; _; _], _, _. split; [vm_compute; reflexivity|]. split; [reflexivity|]. split; [eexists; right; reflexivity|]. split; reflexivity.
Qed.
Example C57_once_leveldb : exists k h1 ys h2,
  krun (ldb_obj toy) (start (s_h ldb_init)) (busy 8 7 2) = Some k
  /\ k_hist k = h1 ++ Cut 1 (OutResults ys) :: h2 /\ ends 1 (Cut 1 (OutResults ys)) /\ length h1 = 4%nat /\ length h2 = 1%nat.
Proof.
  eexists _, [_; _; _; _], _, _. split; [vm_compute; reflexivity|]. split; [reflexivity|]. split; [eexists; right; reflexivity|]. split; reflexivity.
Qed.
