(** C112: calls to the EventStoreDB store do not wait for each other. *)
From Coq Require Import PeanoNat.
From Verif Require Import Base LogSpec StoreSpec Locks LocksSpec LocksProofs Postgres EventStore Properties_EventStore.
Open Scope string_scope.
Open Scope list_scope.
Open Scope N_scope.

(** ** What is claimed *)
Definition told (i : nat) (k : esconf) : Prop := exists x, In (Ret i x) (x_hist k).
(** The process is not replaced by a new one. *)
Definition same_process (ls : list xlabel) : Prop := ~ In XRestart ls.

(** ** Proof *)
Section WaitFree.
Variable j : jlib.
Variable prefix : option string.
Variable recdel : bool.
Let xstep := xstep j prefix recdel.
Let xrun := xrun j prefix recdel.

Definition fits (o : op) (p : espc) : Prop :=
  match p, o with
  | XAppend _, OpSave _ _ _ _ | XActual, OpDelete _ _ _ | XMark, OpDelete _ _ _ => True
  | XNew, _ | XDone, _ => True
  | _, _ => False
  end.
Inductive shape (k k' : esconf) : Prop :=
| sh_new o : x_calls k' = x_calls k ++ [mk_escall o XNew] -> x_hist k' = x_hist k ++ [Inv (length (x_calls k)) o] -> shape k k'
| sh_same : x_calls k' = x_calls k -> x_hist k' = x_hist k -> shape k k'
| sh_move i o p p' h : nth_error (x_calls k) i = Some (mk_escall o p) -> p <> XDone -> x_calls k' = upd i (mk_escall o p') (x_calls k) -> x_hist k' = x_hist k ++ h ->
    fits o p' -> p' <> XNew -> (p' = XDone -> exists x, h = [Ret i x]) -> (p' <> XDone -> h = []) -> shape k k'.

Lemma reply_shape k k0 i o p x : nth_error (x_calls k) i = Some (mk_escall o p) -> p <> XDone -> x_calls k0 = x_calls k -> x_hist k0 = x_hist k -> shape k (xreply i o x k0).
Proof. intros Hn Np E1 E2. apply (sh_move _ _ i o p XDone [Ret i x]); cbn; rewrite ?E1, ?E2; auto; try discriminate; try (now destruct o); try (intros; congruence). intros _. now exists x. Qed.
Lemma set_shape k k0 i o p p' : nth_error (x_calls k) i = Some (mk_escall o p) -> p <> XDone -> x_calls k0 = x_calls k -> x_hist k0 = x_hist k -> fits o p' -> p' <> XNew -> p' <> XDone ->
  shape k (set_xcall i o p' k0).
Proof. intros Hn Np E1 E2 F N1 N2. apply (sh_move _ _ i o p p' []); cbn; rewrite ?E1, ?E2, ?app_nil_r; auto; intros; congruence. Qed.
Lemma check_shape k i ex s evs cn p n : nth_error (x_calls k) i = Some (mk_escall (OpSave ex s evs cn) p) -> p <> XDone -> shape k (after_check j i (OpSave ex s evs cn) ex s evs n k).
Proof.
  intros Hn Np. unfold after_check. destruct (match ex with Some x => if x =? n then None else Some (EUnexpectedSeq x n) | None => None end); [eapply reply_shape; eauto|].
  destruct (propose _ _ _ _ _); [eapply reply_shape; eauto|]. eapply set_shape; eauto; try discriminate. exact Logic.I.
Qed.

Lemma step_shape k lb k' : xstep k lb = Some k' -> lb <> XRestart -> shape k k'.
Proof.
  intros E Hl. unfold xstep in E. destruct lb as [o|i gaps|i n|i gaps| | |sn ty r gap|]; cbn [EventStore.xstep] in E.
  - injection E as <-. now apply (sh_new _ _ o).
  - destruct (nth_error (x_calls k) i) as [[o p]|] eqn:Hn; [|discriminate]. cbn [es_op es_pc] in E.
    destruct p, o as [ex s [|e evs] cn|ex s cn|g|g ts|m s|s cn]; cbn [es_step] in E; try discriminate;
      repeat match type of E with
      | Some (after_check _ _ _ _ _ _ _ _) = _ => fail 1
      | (if ?b then _ else _) = _ => destruct b
      | match ?b with inl _ => _ | inr _ => _ end = _ => destruct b
      end; injection E as <-; solve [eapply reply_shape; eauto; discriminate | eapply check_shape; eauto; discriminate | eapply set_shape; eauto; try discriminate; exact Logic.I].
  - destruct (nth_error (x_calls k) i) as [[o p]|] eqn:Hn; [|discriminate]. cbn [es_op es_pc] in E.
    destruct p, o as [[x|] s [|e evs] cn|ex s cn|g|g ts|m s|s cn]; cbn [es_fail] in E; try discriminate; injection E as <-;
      solve [eapply reply_shape; eauto; discriminate | eapply check_shape; eauto; discriminate].
  - destruct (nth_error (x_calls k) i) as [[o p]|] eqn:Hn; [|discriminate]. cbn [es_op es_pc] in E.
    destruct p, o as [ex s evs cn|ex s cn|g|g ts|m s|s cn]; cbn [es_lost] in E; try discriminate;
      repeat match type of E with (if ?b then _ else _) = _ => destruct b; try discriminate end; injection E as <-; eapply reply_shape; eauto; discriminate.
  - unfold es_deliver in E. destruct (x_sub k); [|discriminate]. destruct (nth_error (x_log k) n); [|discriminate].
    destruct (internal e); [injection E as <-; now apply sh_same|]. destruct (negb _); [injection E as <-; now apply sh_same|].
    destruct (record_from _ _); injection E as <-; now apply sh_same.
  - injection E as <-. now apply sh_same.
  - destruct (memb sn (x_tomb k)); [discriminate|]. injection E as <-. now apply sh_same.
  - congruence.
Qed.

(** [h0], [n]: the history and the number of calls when the process was started. *)
Record Inv_ok (h0 : list act) (n : nat) (k : esconf) : Prop := {
  io_len : (n <= length (x_calls k))%nat;
  io_call : forall i o, In (Inv i o) (x_hist k) -> In (Inv i o) h0 \/ (n <= i)%nat /\ exists p, nth_error (x_calls k) i = Some (mk_escall o p);
  io_fits : forall i o p, (n <= i)%nat -> nth_error (x_calls k) i = Some (mk_escall o p) -> fits o p;
  io_told : forall i o, (n <= i)%nat -> nth_error (x_calls k) i = Some (mk_escall o XDone) -> told i k
}.
Lemma grows k k' : shape k k' -> exists h, x_hist k' = x_hist k ++ h.
Proof. destruct 1 as [o _ E|_ E|i o p p' h _ _ _ E]; [eauto| |eauto]. exists []. now rewrite app_nil_r. Qed.
Lemma ok_step h0 n k k' : Inv_ok h0 n k -> shape k k' -> Inv_ok h0 n k'.
Proof.
  intros [H0 H1 H2 H3] S. pose proof (grows _ _ S) as (h1 & E0).
  assert (T : forall i, told i k -> told i k') by (intros i (x & Hx); exists x; rewrite E0; apply in_or_app; now left).
  destruct S as [o E1 E2|E1 E2|i o p p' h Hn Np0 E1 E2 F N1 D1 D2].
  - assert (Nth : forall i o' p, nth_error (x_calls k') i = Some (mk_escall o' p) -> (i = length (x_calls k) /\ o' = o /\ p = XNew) \/ nth_error (x_calls k) i = Some (mk_escall o' p)).
    { intros i o' p. rewrite E1. destruct (Nat.lt_ge_cases i (length (x_calls k))) as [L|L]; [rewrite nth_error_app1; auto|].
      rewrite nth_error_app2 by assumption. destruct (i - length (x_calls k))%nat as [|z] eqn:Ez; cbn; [|destruct z; discriminate]. intros [= <- <-]. left. repeat split. lia. }
    constructor.
    + rewrite E1, app_length. lia.
    + intros i o' H. rewrite E2 in H. apply in_app_or in H as [H|[H|[]]].
      * destruct (H1 _ _ H) as [A|(A & p & Hp)]; [now left|right]. split; [exact A|]. exists p. rewrite E1, nth_error_app1; [exact Hp|]. apply nth_error_Some. congruence.
      * injection H as <- <-. right. split; [exact H0|]. exists XNew. rewrite E1, nth_error_app2, Nat.sub_diag by lia. reflexivity.
    + intros i o' p L H. destruct (Nth _ _ _ H) as [(-> & -> & ->)|H']; [destruct o; exact Logic.I|eauto].
    + intros i o' L H. destruct (Nth _ _ _ H) as [(_ & _ & X)|H']; [discriminate|eauto].
  - constructor; rewrite ?E1, ?E2; auto. intros i o L H. apply T. eauto.
  - constructor.
    + rewrite E1, upd_length. exact H0.
    + intros i' o' H. rewrite E2 in H. apply in_app_or in H as [H|H].
      * destruct (H1 _ _ H) as [A|(A & q & Hq)]; [now left|right]. split; [exact A|].
        rewrite E1, (nth_upd _ _ _ _ _ Hn). destruct (Nat.eqb_spec i' i) as [->|]; [|eauto]. rewrite Hn in Hq. injection Hq as -> _. eauto.
      * exfalso. assert (Dp : p' = XDone \/ p' <> XDone) by (destruct p'; auto; right; discriminate). destruct Dp as [->|Dp].
        -- destruct (D1 eq_refl) as (x & ->). destruct H as [H|[]]. discriminate.
        -- rewrite (D2 Dp) in H. destruct H.
    + intros i' o' q L H. rewrite E1, (nth_upd _ _ _ _ _ Hn) in H. destruct (Nat.eqb_spec i' i) as [->|]; [|eauto]. injection H as <- <-. exact F.
    + intros i' o' L H. rewrite E1, (nth_upd _ _ _ _ _ Hn) in H. destruct (Nat.eqb_spec i' i) as [->|]; [|eauto].
      injection H as <- ->. destruct (D1 eq_refl) as (x & ->). exists x. rewrite E2. apply in_or_app. right. now left.
Qed.
Lemma begun_step k k' i o p : shape k k' -> nth_error (x_calls k) i = Some (mk_escall o p) -> p <> XNew -> exists p', nth_error (x_calls k') i = Some (mk_escall o p') /\ p' <> XNew.
Proof.
  intros S Hp Np. destruct S as [o1 E1 E2|E1 E2|i1 o1 p1 p' h Hn Np0 E1 E2 F N1 D1 D2]; rewrite E1.
  - exists p. rewrite nth_error_app1; [auto|]. apply nth_error_Some. congruence.
  - eauto.
  - rewrite (nth_upd _ _ _ _ _ Hn). destruct (Nat.eqb_spec i i1) as [->|]; [|eauto]. rewrite Hn in Hp. injection Hp as -> _. eauto.
Qed.
Lemma run_ok h0 n ls : forall k k', same_process ls -> Inv_ok h0 n k -> xrun k ls = Some k' -> Inv_ok h0 n k'.
Proof.
  induction ls as [|lb ls IH]; intros k k' Hs H E; cbn in E; [now injection E as <-|].
  destruct (EventStore.xstep j prefix recdel k lb) as [k1|] eqn:E1; [|discriminate]. apply (IH k1); auto; [intros X; apply Hs; now right|].
  eapply ok_step; [exact H|]. eapply step_shape; [exact E1|]. intros ->. apply Hs. now left.
Qed.
Lemma run_begun ls : forall k k' i o p, same_process ls -> xrun k ls = Some k' -> nth_error (x_calls k) i = Some (mk_escall o p) -> p <> XNew ->
  exists p', nth_error (x_calls k') i = Some (mk_escall o p') /\ p' <> XNew.
Proof.
  induction ls as [|lb ls IH]; intros k k' i o p Hs E Hp Np; cbn in E; [injection E as <-; eauto|].
  destruct (EventStore.xstep j prefix recdel k lb) as [k1|] eqn:E1; [|discriminate].
  assert (S : shape k k1) by (eapply step_shape; [exact E1|]; intros ->; apply Hs; now left).
  destruct (begun_step _ _ _ _ _ S Hp Np) as (p1 & Hp1 & Np1). apply (IH k1 k' i o p1); auto. intros X; apply Hs; now right.
Qed.

Lemma own_move k i o p gaps k' : xstep k (XStep i gaps) = Some k' -> nth_error (x_calls k) i = Some (mk_escall o p) ->
  exists p', nth_error (x_calls k') i = Some (mk_escall o p') /\ p' <> XNew.
Proof.
  intros E Hn. unfold xstep in E. cbn [EventStore.xstep] in E. rewrite Hn in E. cbn [es_op es_pc] in E.
  assert (R : forall k0 x, x_calls k0 = x_calls k -> exists p', nth_error (x_calls (xreply i o x k0)) i = Some (mk_escall o p') /\ p' <> XNew).
  { intros k0 x Ec. exists XDone. cbn. rewrite Ec, (nth_upd _ _ _ _ _ Hn), Nat.eqb_refl. split; [reflexivity|discriminate]. }
  assert (M : forall k0 q, x_calls k0 = x_calls k -> q <> XNew -> exists p', nth_error (x_calls (set_xcall i o q k0)) i = Some (mk_escall o p') /\ p' <> XNew).
  { intros k0 q Ec Nq. exists q. cbn. rewrite Ec, (nth_upd _ _ _ _ _ Hn), Nat.eqb_refl. split; [reflexivity|exact Nq]. }
  destruct p, o as [ex s [|e evs] cn|ex s cn|g|g ts|m s|s cn]; cbn [es_step] in E; try discriminate; unfold after_check in E;
    repeat match type of E with
    | (if ?b then _ else _) = _ => destruct b
    | match ?b with inl _ => _ | inr _ => _ end = _ => destruct b
    | Some (match ?b with Some _ => _ | None => _ end) = _ => destruct b
    | Some (match ?b with inl _ => _ | inr _ => _ end) = _ => destruct b
    end; injection E as <-; first [apply R; reflexivity | apply M; [reflexivity|discriminate]].
Qed.

Lemma first_move k i o gaps : nth_error (x_calls k) i = Some (mk_escall o XNew) -> exists k', xstep k (XStep i gaps) = Some k'.
Proof.
  intros H. unfold xstep. cbn. rewrite H. cbn. destruct o as [ex s [|e evs] cn|ex s cn|g|g ts|m s|s cn]; cbn; eauto.
  repeat match goal with |- context [if ?b then _ else _] => destruct b end; eauto.
Qed.
Lemma reply_told i o x k : told i (xreply i o x k).
Proof. exists x. cbn. apply in_or_app. right. now left. Qed.
Lemma second_move k i o p gaps : nth_error (x_calls k) i = Some (mk_escall o p) -> fits o p -> p <> XNew -> p <> XDone ->
  exists k', xstep k (XStep i gaps) = Some k' /\ told i k'.
Proof.
  intros H F N1 N2. unfold xstep. cbn. rewrite H. cbn.
  destruct p, o as [ex s evs cn|ex s cn|g|g ts|m s|s cn]; cbn in F; try contradiction; try congruence; cbn [es_step].
  - repeat match goal with |- context [if ?b then Some _ else _] => destruct b end; eexists; (split; [reflexivity|apply reply_told]).
  - match goal with |- context [match ?b with inl _ => _ | inr _ => _ end] => destruct b end; eexists; (split; [reflexivity|apply reply_told]).
  - eexists. split; [reflexivity|apply reply_told].
Qed.
Lemma fresh_ok k : Inv_ok (x_hist k) (length (x_calls k)) k.
Proof. constructor; auto; intros i o; intros; exfalso; match goal with L : (_ <= i)%nat, H : nth_error _ i = Some _ |- _ => rewrite (proj2 (nth_error_None _ _) L) in H; discriminate end. Qed.

(** ** One answer for one call *)
Record One_ok (k : esconf) : Prop := {
  oo_done : forall i x, In (Ret i x) (x_hist k) -> exists o, nth_error (x_calls k) i = Some (mk_escall o XDone);
  oo_made : forall i o p, nth_error (x_calls k) i = Some (mk_escall o p) -> In (Inv i o) (x_hist k);
  oo_once : forall h1 i x h2, x_hist k = h1 ++ Ret i x :: h2 -> (exists o, In (Inv i o) h1) /\ forall y, ~ In (Ret i y) (h1 ++ h2)
}.
Lemma snoc_split {A} (l h1 h2 : list A) a b : l ++ [a] = h1 ++ b :: h2 -> (h2 = [] /\ a = b /\ l = h1) \/ exists h2', h2 = h2' ++ [a] /\ l = h1 ++ b :: h2'.
Proof.
  intros E. destruct (exists_last (l := b :: h2)) as (m & z & Ez); [discriminate|]. rewrite Ez, app_assoc in E. apply app_inj_tail in E as [-> ->].
  destruct m as [|b' m]; cbn in Ez; injection Ez as -> ->; [left|right]; [now rewrite app_nil_r|eauto].
Qed.
Lemma one_step k k' : One_ok k -> shape k k' -> One_ok k'.
Proof.
  intros [H1 H2 H3] S. destruct S as [o E1 E2|E1 E2|i o p p' h Hn Np E1 E2 F N1 D1 D2].
  - constructor.
    + intros i x H. rewrite E2 in H. apply in_app_or in H as [H|[H|[]]]; [|discriminate]. destruct (H1 _ _ H) as (o' & Ho). exists o'.
      rewrite E1, nth_error_app1; [exact Ho|]. apply nth_error_Some. congruence.
    + intros i o' q H. rewrite E2. apply in_or_app. rewrite E1 in H. destruct (Nat.lt_ge_cases i (length (x_calls k))) as [L|L]; [rewrite nth_error_app1 in H; eauto|].
      rewrite nth_error_app2 in H by assumption. right. destruct (i - length (x_calls k))%nat as [|z] eqn:Ez; cbn in H; [|destruct z; discriminate].
      injection H as <- <-. left. f_equal. lia.
    + intros h1 i x h2 H. rewrite E2 in H. apply snoc_split in H as [(_ & X & _)|(h2' & -> & H)]; [discriminate|]. destruct (H3 _ _ _ _ H) as [A B]. split; [exact A|].
      intros y Hy. rewrite app_assoc in Hy. apply in_app_or in Hy as [Hy|[Hy|[]]]; [exact (B y Hy)|discriminate].
  - constructor; rewrite ?E1, ?E2; auto.
  - assert (Nr : forall y, ~ In (Ret i y) (x_hist k)) by (intros y Hy; destruct (H1 _ _ Hy) as (o' & Ho); rewrite Hn in Ho; congruence).
    assert (Dp : p' = XDone \/ p' <> XDone) by (destruct p'; auto; right; discriminate).
    assert (Hh : (p' = XDone /\ exists x, h = [Ret i x]) \/ h = []) by (destruct Dp; auto).
    constructor.
    + intros i' x H. rewrite E1, (nth_upd _ _ _ _ _ Hn). rewrite E2 in H. apply in_app_or in H as [H|H].
      * destruct (Nat.eqb_spec i' i) as [->|]; [destruct (Nr _ H)|eauto].
      * destruct Hh as [(-> & z & ->)| ->]; [|destruct H]. destruct H as [H|[]]. injection H as -> _. rewrite Nat.eqb_refl. eauto.
    + intros i' o' q H. rewrite E2. apply in_or_app. left. rewrite E1, (nth_upd _ _ _ _ _ Hn) in H. destruct (Nat.eqb_spec i' i) as [->|]; [|eauto]. injection H as <- _. eauto.
    + intros h1 i' x h2 H. rewrite E2 in H. destruct Hh as [(-> & z & ->)| ->]; [|rewrite app_nil_r in H; eauto].
      apply snoc_split in H as [(-> & X & E)|(h2' & -> & H)].
      * injection X as <- <-. subst h1. rewrite app_nil_r. split; eauto.
      * destruct (H3 _ _ _ _ H) as [A B]. split; [exact A|]. intros y Hy. rewrite app_assoc in Hy. apply in_app_or in Hy as [Hy|[Hy|[]]]; [exact (B y Hy)|].
        injection Hy as -> _. apply (Nr x). rewrite H. apply in_or_app. right. now left.
Qed.
Lemma one_restart k : One_ok k -> forall k', xstep k XRestart = Some k' -> One_ok k'.
Proof.
  intros [H1 H2 H3] k' [= <-]. constructor; cbn; auto.
  - intros i x H. destruct (H1 _ _ H) as (o & Ho). exists o. now rewrite nth_error_map, Ho.
  - intros i o p H. rewrite nth_error_map in H. destruct (nth_error (x_calls k) i) as [[o' p']|] eqn:E; [|discriminate]. injection H as <- _. eauto.
Qed.
Lemma one_run ls : forall k k', One_ok k -> xrun k ls = Some k' -> One_ok k'.
Proof.
  induction ls as [|lb ls IH]; intros k k' H E; cbn in E; [now injection E as <-|].
  destruct (EventStore.xstep j prefix recdel k lb) as [k1|] eqn:E1; [|discriminate]. apply (IH k1); auto.
  assert (D : lb = XRestart \/ lb <> XRestart) by (destruct lb; auto; right; discriminate). destruct D as [->|D]; [exact (one_restart _ H _ E1)|].
  eapply one_step; [exact H|]. eapply step_shape; eauto.
Qed.
End WaitFree.

(** C112: in every run, restarts included, an answer belongs to a call made before it and
    is the only answer to it. *)
Theorem C112_eventstore_answers_once : forall j prefix recdel ls k h1 i x h2,
  xrun j prefix recdel es_start ls = Some k -> x_hist k = h1 ++ Ret i x :: h2 ->
  (exists o, In (Inv i o) h1) /\ forall y, ~ In (Ret i y) (h1 ++ h2).
Proof.
  intros j prefix recdel ls k h1 i x h2 E. apply oo_once. eapply one_run; [|exact E].
  constructor; [intros ? ? []|intros [|?] ? ? H; discriminate|intros [|? ?] ? ? ? H; discriminate].
Qed.
Print Assumptions C112_eventstore_answers_once.

(** C112: [ls0] leads to [k0], with any number of processes before; from then on, in
    [ls], the process is not replaced.  Whatever other calls, other applications and
    failing requests do: a call made since and not answered can make its next request at
    once.  Then it is answered, or its next request after that - whatever happened in
    between - is answered at once. *)
Theorem C112_eventstore_never_waits_partial : forall j prefix recdel ls0 k0 ls k i o,
  xrun j prefix recdel es_start ls0 = Some k0 -> xrun j prefix recdel k0 ls = Some k -> same_process ls ->
  In (Inv i o) (x_hist k) -> ~ In (Inv i o) (x_hist k0) -> ~ told i k ->
  forall gaps, exists k1, xstep j prefix recdel k (XStep i gaps) = Some k1
    /\ forall ls2 k2, xrun j prefix recdel k1 ls2 = Some k2 -> same_process ls2 ->
         told i k2 \/ forall gaps2, exists k3, xstep j prefix recdel k2 (XStep i gaps2) = Some k3 /\ told i k3.
Proof.
  intros j prefix recdel ls0 k0 ls k i o _ E Hs Hi Hi0 Ht gaps.
  pose proof (run_ok j prefix recdel _ _ ls _ _ Hs (fresh_ok k0) E) as I. destruct (io_call _ _ _ I _ _ Hi) as [X|(Hl & p & Hp)]; [contradiction|].
  assert (Nd : p <> XDone) by (intros ->; exact (Ht (io_told _ _ _ I _ _ Hl Hp))).
  assert (M : exists k1 p1, xstep j prefix recdel k (XStep i gaps) = Some k1 /\ nth_error (x_calls k1) i = Some (mk_escall o p1) /\ p1 <> XNew).
  { assert (X : exists k1, xstep j prefix recdel k (XStep i gaps) = Some k1).
    { destruct p; try (destruct (second_move j prefix recdel k i o _ gaps Hp (io_fits _ _ _ I _ _ _ Hl Hp)) as (k1 & E1 & _); [discriminate|assumption|eauto]). eapply first_move; eauto. }
    destruct X as (k1 & E1). destruct (own_move j prefix recdel k i o p gaps k1 E1 Hp) as (p1 & H1 & N1). eauto. }
  destruct M as (k1 & p1 & E1 & Hp1 & Np1). exists k1. split; [exact E1|]. intros ls2 k2 E2 Hs2.
  assert (I1 : Inv_ok (x_hist k0) (length (x_calls k0)) k1) by (eapply ok_step; [exact I|]; eapply step_shape; [exact E1|discriminate]).
  pose proof (run_ok j prefix recdel _ _ ls2 _ _ Hs2 I1 E2) as I2.
  destruct (run_begun j prefix recdel ls2 _ _ _ _ _ Hs2 E2 Hp1 Np1) as (p2 & Hp2 & Np2).
  assert (D : p2 = XDone \/ p2 <> XDone) by (destruct p2; auto; right; discriminate). destruct D as [->|D].
  - left. exact (io_told _ _ _ I2 _ _ Hl Hp2).
  - right. intros gaps2. exact (second_move j prefix recdel k2 i o p2 gaps2 Hp2 (io_fits _ _ _ I2 _ _ _ Hl Hp2) Np2 D).
Qed.
Print Assumptions C112_eventstore_never_waits_partial.

(** A process is replaced in the middle of a save.  In the new one two saves and a delete
    overlap: the first save has checked, the second is done, the delete has been refused
    by the server; neither the first save nor the delete is answered, and the delete is
    answered by its next request. *)
Definition earlier : list xlabel := [XInvoke (esave (Some 0) "s" ["z"]); XStep 0 []; XRestart].
Definition crowd : list xlabel :=
  [XInvoke (esave (Some 0) "s" ["a"]); XInvoke (esave None "s" ["b"]); XStep 1 []; XStep 2 []; XStep 2 []; XInvoke (OpDelete 4 "s" None); XStep 3 []].
Lemma earlier_hist : x_hist (erun true earlier) = [Inv 0 (esave (Some 0) "s" ["z"])].
Proof. vm_compute. reflexivity. Qed.
Lemma crowd_hist : x_hist (erun true (earlier ++ crowd)) =
  [Inv 0 (esave (Some 0) "s" ["z"]); Inv 1 (esave (Some 0) "s" ["a"]); Inv 2 (esave None "s" ["b"]); Ret 2 (OutSaved 1 []); Inv 3 (OpDelete 4 "s" None)].
Proof. vm_compute. reflexivity. Qed.
Example C112_crowd : let k0 := erun true earlier in let k := erun true (earlier ++ crowd) in
  xrun es_json (Some "v1-") true es_start earlier = Some k0 /\ xrun es_json (Some "v1-") true k0 crowd = Some k /\ same_process crowd
  /\ In (Inv 1 (esave (Some 0) "s" ["a"])) (x_hist k) /\ ~ In (Inv 1 (esave (Some 0) "s" ["a"])) (x_hist k0) /\ ~ told 1 k
  /\ In (Inv 3 (OpDelete 4 "s" None)) (x_hist k) /\ ~ In (Inv 3 (OpDelete 4 "s" None)) (x_hist k0) /\ ~ told 3 k
  /\ (exists k1, xstep es_json (Some "v1-") true k (XStep 3 []) = Some k1 /\ In (Ret 3 (OutFailed (EUnexpectedSeq 4 1))) (x_hist k1)).
Proof.
  cbv zeta. split; [vm_compute; reflexivity|]. split; [vm_compute; reflexivity|]. split; [unfold same_process, crowd; cbn; intuition discriminate|].
  unfold told. rewrite crowd_hist, earlier_hist. repeat split.
  - right; left; reflexivity.
  - intros [H|[]]; discriminate.
  - intros (x & [H|[H|[H|[H|[H|[]]]]]]); discriminate.
  - do 4 right; left; reflexivity.
  - intros [H|[]]; discriminate.
  - intros (x & [H|[H|[H|[H|[H|[]]]]]]); discriminate.
  - eexists. split; [vm_compute; reflexivity|]. cbn. auto 10.
Qed.

(** Two saves and a delete, each answered once, in an order of their own. *)
Example C112_answers : exists h1 h2,
  x_hist (erun true (earlier ++ crowd ++ [XStep 3 []; XLost 1 []])) = h1 ++ Ret 3 (OutFailed (EUnexpectedSeq 4 1)) :: h2
  /\ In (Ret 2 (OutSaved 1 [])) h1 /\ h2 = [Ret 1 (OutFailed EDatabase)].
Proof.
  exists (x_hist (erun true (earlier ++ crowd))), [Ret 1 (OutFailed EDatabase)]. split; [vm_compute; reflexivity|]. split; [|reflexivity].
  rewrite crowd_hist. do 3 right. left. reflexivity.
Qed.
