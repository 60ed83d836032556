(** The numbering of one stream of the PostgreSQL store. *)
From Coq Require Import Sorted Permutation PeanoNat.
From Verif Require Import Base Locks LocksSpec LocksProofs Postgres PostgresSpec PostgresProofs.

Section Stream.
Variable j : jlib.
Variable key : string -> N.
Variable limit : nat.
Notation gstep := (gstep j key limit).
Notation grun := (grun j key limit).
Notation gcase := (gcase j key).

Lemma rows_of_app s l l' : rows_of s (l ++ l') = rows_of s l ++ rows_of s l'.
Proof. apply filter_app. Qed.
Lemma rows_of_all s l : Forall (fun r => r_stream r = s) l -> rows_of s l = l.
Proof. induction 1 as [|r l E H IH]; cbn; auto. rewrite E, String.eqb_refl. now f_equal. Qed.
Lemma rows_of_none s s' l : Forall (fun r => r_stream r = s') l -> s <> s' -> rows_of s l = [].
Proof. induction 1 as [|r l E H IH]; cbn; auto. intros N. rewrite E. destruct (String.eqb_spec s' s); [congruence|auto]. Qed.

Lemma rows_of_in s l r : In r (rows_of s l) <-> In r l /\ r_stream r = s.
Proof. clear. unfold rows_of. rewrite filter_In, String.eqb_eq. reflexivity. Qed.

Lemma filter_true {A} (f : A -> bool) l : (forall x, In x l -> f x = true) -> filter f l = l.
Proof. induction l as [|a l IH]; cbn; auto. intros H. rewrite (H a) by auto. f_equal. auto. Qed.
Lemma filter_false {A} (f : A -> bool) l : (forall x, In x l -> f x = false) -> filter f l = [].
Proof. induction l as [|a l IH]; cbn; auto. intros H. rewrite (H a) by auto. auto. Qed.
Lemma filter_comm {A} (f g : A -> bool) l : filter f (filter g l) = filter g (filter f l).
Proof. induction l as [|a l IH]; cbn; auto. destruct (f a) eqn:Ef, (g a) eqn:Eg; cbn; rewrite ?Ef, ?Eg, IH; auto. Qed.

Lemma rows_removed s gs rows : rows_of s (removed_rows gs rows) = removed_rows gs (rows_of s rows).
Proof. apply filter_comm. Qed.

Lemma max_of_rows s rows : max_ssn s rows = fold_right N.max 0 (map r_ssn (rows_of s rows)).
Proof. induction rows as [|r rows IH]; cbn; auto. destruct (String.eqb (r_stream r) s); cbn; now rewrite IH. Qed.
Lemma numbers_snoc n m : numbers_from n (S m) = numbers_from n m ++ [n + N.of_nat m].
Proof. unfold numbers_from. rewrite seq_S, map_app. reflexivity. Qed.
Lemma numbers_app n a b : numbers_from n (a + b) = numbers_from n a ++ numbers_from (n + N.of_nat a) b.
Proof.
  induction b as [|b IH]; [now rewrite Nat.add_0_r, app_nil_r|].
  rewrite Nat.add_succ_r, !numbers_snoc, IH, <- app_assoc. do 3 f_equal. lia.
Qed.
Lemma max_app l x : fold_right N.max 0 (l ++ [x]) = N.max (fold_right N.max 0 l) x.
Proof. induction l as [|a l IH]; cbn; [lia|]. rewrite IH. lia. Qed.
Lemma max_numbers m : fold_right N.max 0 (numbers_from 1 m) = N.of_nat m.
Proof. induction m as [|m IH]; [reflexivity|]. rewrite numbers_snoc, max_app, IH. lia. Qed.

Lemma sorted_app_l {A} (Rel : A -> A -> Prop) l l' : StronglySorted Rel (l ++ l') -> StronglySorted Rel l.
Proof.
  induction l as [|a l IH]; cbn; [constructor|]. intros H. inversion H; subst. constructor; auto.
  apply Forall_app in H3. tauto.
Qed.
Lemma sorted_snoc {A} (Rel : A -> A -> Prop) l x : StronglySorted Rel l -> Forall (fun y => Rel y x) l -> StronglySorted Rel (l ++ [x]).
Proof.
  induction l as [|a l IH]; cbn; intros H F; [repeat constructor|]. inversion H; inversion F; subst. constructor; auto.
  apply Forall_app. auto.
Qed.

Record Stream (s : string) (k : pgconf) : Prop := {
  st_ssn : map r_ssn (rows_of s (g_rows k)) = numbers_from 1 (length (rows_of s (g_rows k)));
  st_gsn : StronglySorted gsn_lt (rows_of s (g_rows k));
  st_ins : forall i ex evs cn todo mine, nth_error (g_calls k) i = Some (mk_pgcall (OpSave ex s evs cn) (PInsert todo mine)) ->
     map r_ssn (mine ++ todo) = numbers_from (N.of_nat (length (rows_of s (g_rows k))) + 1) (length (mine ++ todo))
     /\ StronglySorted gsn_lt (rows_of s (g_rows k) ++ mine)
     /\ (forall x, ex = Some x -> x = N.of_nat (length (rows_of s (g_rows k))));
  st_del : forall i ex cn todo done, nth_error (g_calls k) i = Some (mk_pgcall (OpDelete ex s cn) (PDeleting todo done)) ->
     forall r, In r (rows_of s (g_rows k)) -> In (r_gsn r) (todo ++ done);
  st_len : forall i ex cn p, nth_error (g_calls k) i = Some (mk_pgcall (OpDelete ex s cn) p) ->
     p = PDelGo \/ (exists t d, p = PDeleting t d) -> N.of_nat (length (rows_of s (g_rows k))) = ex
}.

Lemma stream_max s k : Stream s k -> max_ssn s (g_rows k) = N.of_nat (length (rows_of s (g_rows k))).
Proof. intros H. rewrite max_of_rows, (st_ssn _ _ H). apply max_numbers. Qed.

Record Good (k : pgconf) : Prop := { gd_h : Hunted j k; gd_l : Locked key k }.

Lemma good_start : Good pg_start.
Proof.
  split; [split|].
  - intros i c H. destruct i; discriminate.
  - split; constructor.
  - intros i; intros; destruct i; discriminate.
  - intros i; intros; destruct i; discriminate.
Qed.
Lemma good_step k lb k' : Good k -> gcase k lb k' -> Good k'.
Proof. intros [H1 H2] C. split; [eapply hunted_step; eauto|eapply locked_step; eauto]. Qed.

Lemma stream_step s k lb k' : Good k -> apart s k -> Stream s k -> gcase k lb k' -> Stream s k'.
Proof.
  intros [[HS HN HU] HL] HA ST C.
  pose proof (stream_max _ _ ST) as Hmax.
  destruct ST as [S1 S2 S3 S4 S5].
  destruct C as [o|lb i o p p' lk h bc Hn Hq|lb i o r todo mine Hn|lb i o mine p' h Hn Hp|lb i o done x Hn Hx|skip].
  - split; cbn [g_rows g_calls]; auto.
    + intros a ex evs cn todo mine H. apply nth_app_new in H as [H|[_ E]]; [eapply S3; eauto|discriminate].
    + intros a ex cn todo done H. apply nth_app_new in H as [H|[_ E]]; [eapply S4; eauto|discriminate].
    + intros a ex cn p H. apply nth_app_new in H as [H|[_ E]]; [eapply S5; eauto|]. injection E as <- ->. intros [E|(t & d & E)]; discriminate.
  - split; cbn [g_rows g_calls]; auto.
    + intros a ex evs cn todo mine. rewrite (nth_upd _ _ _ _ _ Hn). destruct (Nat.eqb_spec a i) as [->|N]; [|intros; eapply S3; eauto].
      intros E. injection E as -> ->. inversion Hq; subst. rewrite Hmax in *.
      match goal with H : batch_rows _ _ _ _ _ _ = _ |- _ => apply batch_shape in H as (B1 & B2 & B3 & _) end. cbn [app]. rewrite app_nil_r, B3, B2. auto.
    + intros a ex cn todo done. rewrite (nth_upd _ _ _ _ _ Hn). destruct (Nat.eqb_spec a i) as [->|N]; [|intros; eapply S4; eauto].
      intros E. injection E as -> ->. inversion Hq; subst.
      * intros r Hr. rewrite app_nil_r. now apply in_map.
      * intros r Hr. pose proof (S4 _ _ _ _ _ Hn r Hr) as [E|E]; auto. exfalso. match goal with H : ~ In _ _ |- _ => apply H end. rewrite E. apply in_map.
        apply rows_of_in in Hr. tauto.
      * intros r Hr. pose proof (S4 _ _ _ _ _ Hn r Hr) as E. rewrite !in_app_iff in *. cbn in *. tauto.
    + intros a ex cn p1. rewrite (nth_upd _ _ _ _ _ Hn). destruct (Nat.eqb_spec a i) as [->|N]; [|intros; eapply S5; eauto].
      intros E. injection E as -> ->. intros Hp1. inversion Hq; subst; try (destruct Hp1 as [E|(t & d & E)]; discriminate); eauto 10.
  - assert (Hb : Forall (fun y => r_gsn y <= g_seq k) (pending k ++ g_rows k)) by apply HN.
    rewrite Forall_forall in Hb.
    split; cbn [g_rows g_calls]; auto.
    + intros a ex evs cn todo' mine'. rewrite (nth_upd _ _ _ _ _ Hn). destruct (Nat.eqb_spec a i) as [->|N]; [|intros; eapply S3; eauto].
      intros E. injection E as -> <- <-. destruct (S3 _ _ _ _ _ _ Hn) as (A1 & A2 & A3).
      rewrite <- app_assoc. cbn [app]. split; [|split; auto].
      * rewrite !map_app in *. rewrite !app_length in *. cbn in *. exact A1.
      * rewrite app_assoc. apply sorted_snoc; auto. apply Forall_forall. intros y Hy. unfold gsn_lt. cbn.
        assert (r_gsn y <= g_seq k); [|lia]. apply Hb. apply in_app_iff in Hy as [Hy|Hy]; apply in_app_iff.
        -- right. apply rows_of_in in Hy. tauto.
        -- left. unfold pending. apply in_flat_map. eexists. split; [eapply nth_error_In; eauto|]. exact Hy.
    + intros a ex cn todo' done. rewrite (nth_upd _ _ _ _ _ Hn). destruct (Nat.eqb_spec a i) as [->|N]; [discriminate|intros; eapply S4; eauto].
    + intros a ex cn p1. rewrite (nth_upd _ _ _ _ _ Hn). destruct (Nat.eqb_spec a i) as [->|N]; [|intros; eapply S5; eauto].
      intros E. injection E as -> <-. intros [E|(t & d & E)]; discriminate.
  - pose proof (HS _ _ Hn) as Hi. cbn in Hi. destruct Hi as (ex & s' & e & evs & cn & -> & Hf & Hlen). rewrite app_nil_r in Hf, Hlen.
    destruct (string_dec s' s) as [->|Ns].
    + destruct (S3 _ _ _ _ _ _ Hn) as (A1 & A2 & A3). rewrite app_nil_r in A1.
      assert (ER : rows_of s (g_rows k ++ mine) = rows_of s (g_rows k) ++ mine) by (rewrite rows_of_app, (rows_of_all s mine); auto).
      assert (Hl : g_locks k (key s) = Some i) by (eapply HL; eauto).
      assert (Sv : saving_past_check s (mk_pgcall (OpSave ex s (e :: evs) cn) (PInsert [] mine))) by (split; cbn; eauto).
      split; cbn [g_rows g_calls]; rewrite ?ER.
      * rewrite map_app, S1, A1, app_length, numbers_app. do 2 f_equal. lia.
      * exact A2.
      * intros a ex' evs' cn' todo' mine'. rewrite (nth_upd _ _ _ _ _ Hn). destruct (Nat.eqb_spec a i) as [->|N].
        -- intros E. injection E as _ _ _ ->. destruct Hp as [[? _]|[? _]]; discriminate.
        -- intros Ha. exfalso. assert (g_locks k (key s) = Some a) by (eapply HL; eauto). congruence.
      * intros a ex' cn' todo' done'. rewrite (nth_upd _ _ _ _ _ Hn). destruct (Nat.eqb_spec a i) as [->|N]; [discriminate|].
        intros Ha. exfalso. apply N. apply (HA a i _ _ Ha Hn); [|now left]. split; cbn; eauto.
      * intros a ex' cn' p1. rewrite (nth_upd _ _ _ _ _ Hn). destruct (Nat.eqb_spec a i) as [->|N]; [discriminate|].
        intros Ha Hp1. exfalso. apply N. apply (HA a i _ _ Ha Hn); [|now left]. split; cbn; eauto.
    + assert (ER : rows_of s (g_rows k ++ mine) = rows_of s (g_rows k)) by (rewrite rows_of_app, (rows_of_none s s' mine), app_nil_r; auto).
      split; cbn [g_rows g_calls]; rewrite ?ER; auto.
      * intros a ex' evs' cn' todo' mine'. rewrite (nth_upd _ _ _ _ _ Hn). destruct (Nat.eqb_spec a i) as [->|N]; [|intros; eapply S3; eauto].
        intros E. injection E as _ _ _ _ ->. destruct Hp as [[? _]|[? _]]; discriminate.
      * intros a ex' cn' todo' done'. rewrite (nth_upd _ _ _ _ _ Hn). destruct (Nat.eqb_spec a i) as [->|N]; [discriminate|intros; eapply S4; eauto].
      * intros a ex' cn' p1. rewrite (nth_upd _ _ _ _ _ Hn). destruct (Nat.eqb_spec a i) as [->|N]; [discriminate|intros; eapply S5; eauto].
  - pose proof (HS _ _ Hn) as Hi. cbn in Hi. destruct Hi as (s' & ex & cn & ->).
    destruct (string_dec s' s) as [->|Ns].
    + assert (ER : rows_of s (removed_rows done (g_rows k)) = []).
      { rewrite rows_removed. apply filter_false. intros r Hr. apply negb_false_iff. apply existsb_eqb.
        apply (S4 _ _ _ _ _ Hn r Hr). }
      assert (Dl : deleting_past_check s (mk_pgcall (OpDelete ex s cn) (PDeleting [] done))) by (split; cbn; eauto).
      split; cbn [g_rows g_calls]; rewrite ?ER.
      * reflexivity.
      * constructor.
      * intros a ex' evs' cn' todo' mine'. rewrite (nth_upd _ _ _ _ _ Hn). destruct (Nat.eqb_spec a i) as [->|N]; [discriminate|].
        intros Ha. exfalso. apply N. symmetry. apply (HA i a _ _ Hn Ha); auto. left. split; cbn; eauto.
      * intros a ex' cn' todo' done'. rewrite (nth_upd _ _ _ _ _ Hn). destruct (Nat.eqb_spec a i) as [->|N]; [discriminate|].
        intros _ r [].
      * intros a ex' cn' p1. rewrite (nth_upd _ _ _ _ _ Hn). destruct (Nat.eqb_spec a i) as [->|N].
        -- intros E. injection E as _ _ <-. intros [E|(t & d & E)]; discriminate.
        -- intros Ha Hp1. exfalso. apply N. apply (HA a i _ _ Ha Hn); [|right; auto]. split; cbn; eauto.
    + assert (ER : rows_of s (removed_rows done (g_rows k)) = rows_of s (g_rows k)).
      { rewrite rows_removed. apply filter_true. intros r Hr. apply negb_true_iff.
        destruct (existsb (N.eqb (r_gsn r)) done) eqn:E; auto. exfalso. apply existsb_eqb in E.
        apply rows_of_in in Hr as [Hr Hs]. destruct (HU _ _ _ _ _ _ Hn (r_gsn r) E) as [_ A]. apply Ns. rewrite <- Hs. symmetry.
        apply A; auto. apply in_app_iff. auto. }
      split; cbn [g_rows g_calls]; rewrite ?ER; auto.
      * intros a ex' evs' cn' todo' mine'. rewrite (nth_upd _ _ _ _ _ Hn). destruct (Nat.eqb_spec a i) as [->|N]; [discriminate|intros; eapply S3; eauto].
      * intros a ex' cn' todo' done'. rewrite (nth_upd _ _ _ _ _ Hn). destruct (Nat.eqb_spec a i) as [->|N]; [discriminate|intros; eapply S4; eauto].
      * intros a ex' cn' p1. rewrite (nth_upd _ _ _ _ _ Hn). destruct (Nat.eqb_spec a i) as [->|N]; [|intros; eapply S5; eauto].
        intros E. injection E as -> -> _ <-. intros [E|(t & d & E)]; discriminate.
  - assert (No : forall a o p, nth_error (map crash_call (g_calls k)) a = Some (mk_pgcall o p) ->
      p = PNew \/ (exists m, p = PSaved m) \/ p = PDone false).
    { intros a o p. rewrite nth_error_map. destruct (nth_error (g_calls k) a) as [c0|] eqn:E0; [|discriminate]. cbn. intros E. injection E as E.
      destruct (crash_call_cases c0) as [[E1 E2]|E1]; rewrite E1 in E.
      - subst c0. cbn in E2. tauto.
      - injection E as _ <-. auto. }
    split; cbn [g_rows g_calls]; auto.
    + intros a; intros. destruct (No _ _ _ H) as [E|[(m & E)|E]]; discriminate.
    + intros a; intros. destruct (No _ _ _ H) as [E|[(m & E)|E]]; discriminate.
    + intros a ex cn p H Hp. destruct (No _ _ _ H) as [->|[(m & ->)| ->]]; destruct Hp as [E|(t & d & E)]; discriminate.
Qed.

Lemma stream_start s : Stream s pg_start.
Proof.
  split; cbn; try reflexivity; try apply SSorted_nil; intros i; intros; destruct i; discriminate.
Qed.

Lemma stream_run s ls : forall k k', Good k -> Stream s k -> always j key limit (apart s) k ls -> grun k ls = Some k' ->
  Good k' /\ Stream s k'.
Proof.
  induction ls as [|lb ls IH]; intros k k' HG HS HA E; cbn in E; [injection E as <-; auto|].
  destruct (gstep k lb) as [k1|] eqn:E1; [|discriminate]. cbn [always] in HA. rewrite E1 in HA. destruct HA as [A1 A2].
  pose proof (step_cases _ _ _ _ _ _ E1) as C. apply (IH k1); auto.
  - eapply good_step; eauto.
  - eapply stream_step; eauto.
Qed.

Lemma good_run ls : forall k k', Good k -> grun k ls = Some k' -> Good k'.
Proof. apply run_inv. apply good_step. Qed.

End Stream.
