From Verif Require Import Base Core CoreSpec.
From Coq Require Import Arith Sorting.

(** * Iterator *)

Lemma consume_spec l : forall fuel r0, (length l < fuel)%nat ->
  exists it, consume fuel (mk_iter l r0 None) = Some (before_error l, it)
             /\ it_err it = first_error l /\ it_rec it = None
             /\ (first_error l = None -> it_chan it = []).
Proof.
  induction l as [|x l IH]; intros fuel r0 Hf; destruct fuel as [|f]; cbn in Hf; try lia.
  - cbn. eexists; repeat split; reflexivity.
  - destruct x as [r|e]; cbn.
    + destruct (IH f (Some r)) as (it & E & He & Hr & Hc); [lia|].
      rewrite E. exists it; auto.
    + eexists; repeat split; try reflexivity. discriminate.
Qed.

Lemma next_after_end it : it_err it <> None \/ (it_chan it = [] /\ it_err it = None) ->
  snd (next it) = false /\ it_err (fst (next it)) = it_err it.
Proof.
  intros [H|[H1 H2]]; unfold next.
  - destruct (it_err it) eqn:E; [|congruence]. cbn. auto.
  - rewrite H1, H2; auto.
Qed.

Fixpoint nexts (n : nat) (it : iter) : iter :=
  match n with O => it | S m => nexts m (fst (next it)) end.

Lemma nexts_after_end n : forall it,
  it_err it <> None \/ (it_chan it = [] /\ it_err it = None) ->
  snd (next (nexts n it)) = false /\ it_err (nexts n it) = it_err it.
Proof.
  induction n as [|n IH]; intros it H; cbn.
  - split; [apply next_after_end, H | reflexivity].
  - destruct (next_after_end it H) as [_ He].
    destruct (IH (fst (next it))) as [A B].
    + unfold next in *. destruct H as [H|[H1 H2]].
      * destruct (it_err it) eqn:E; [|congruence]. cbn. left. congruence.
      * rewrite H1, H2 in *. right; auto.
    + split; [exact A| congruence].
Qed.

(** * Sorted lists *)

Lemma incr_app l1 l2 : gsn_increasing l1 -> gsn_increasing l2 ->
  (forall a b, In a l1 -> In b l2 -> r_gsn a < r_gsn b) -> gsn_increasing (l1 ++ l2).
Proof.
  unfold gsn_increasing. induction l1 as [|x l1 IH]; intros H1 H2 H; cbn; auto.
  inversion H1 as [|? ? HS HF]; subst. constructor.
  - apply IH; auto. intros; apply H; cbn; auto.
  - apply Forall_app; split; auto. apply Forall_forall. intros; apply H; cbn; auto.
Qed.

Lemma incr_cons_inv x l : gsn_increasing (x :: l) ->
  gsn_increasing l /\ forall b, In b l -> r_gsn x < r_gsn b.
Proof. intros H. inversion H; subst. split; auto. now apply Forall_forall. Qed.

Lemma incr_cons x l : gsn_increasing l -> (forall b, In b l -> r_gsn x < r_gsn b) -> gsn_increasing (x :: l).
Proof. intros. constructor; auto. now apply Forall_forall. Qed.

Lemma incr_nil : gsn_increasing [].
Proof. constructor. Qed.

Lemma incr_app_inv l1 l2 : gsn_increasing (l1 ++ l2) -> gsn_increasing l1 /\ gsn_increasing l2
  /\ (forall a b, In a l1 -> In b l2 -> r_gsn a < r_gsn b).
Proof.
  induction l1 as [|x l1 IH]; cbn; intros H.
  - repeat split; auto using incr_nil. intros a b [].
  - destruct (incr_cons_inv _ _ H) as [H1 H2]. destruct (IH H1) as (A & B & C).
    repeat split; auto.
    + apply incr_cons; auto. intros; apply H2, in_or_app; auto.
    + intros a b [->|Ha] Hb; [apply H2, in_or_app; auto|auto].
Qed.

Lemma incr_filter f l : gsn_increasing l -> gsn_increasing (filter f l).
Proof.
  induction l as [|x l IH]; cbn; intros H; auto.
  destruct (incr_cons_inv _ _ H) as [H1 H2].
  destruct (f x); auto. apply incr_cons; auto.
  intros b Hb. apply filter_In in Hb. apply H2; tauto.
Qed.

Lemma incr_NoDup l : gsn_increasing l -> NoDup (map r_gsn l).
Proof.
  induction l as [|x l IH]; intros H; cbn; constructor.
  - destruct (incr_cons_inv _ _ H) as [_ H2]. intros Hin. apply in_map_iff in Hin.
    destruct Hin as (y & E & Hy). specialize (H2 y Hy). lia.
  - apply IH. eapply incr_cons_inv; eauto.
Qed.

Lemma incr_same_elements l1 : forall l2, gsn_increasing l1 -> gsn_increasing l2 ->
  (forall r, In r l1 <-> In r l2) -> l1 = l2.
Proof.
  induction l1 as [|a l1 IH]; intros [|b l2] H1 H2 H; auto.
  - exfalso. apply (H b). now left.
  - exfalso. apply (H a). now left.
  - destruct (incr_cons_inv _ _ H1) as [S1 L1], (incr_cons_inv _ _ H2) as [S2 L2].
    assert (a = b) as ->.
    { destruct (proj1 (H a) (or_introl eq_refl)) as [E|Ea]; auto.
      destruct (proj2 (H b) (or_introl eq_refl)) as [E|Eb]; auto.
      specialize (L2 _ Ea). specialize (L1 _ Eb). lia. }
    f_equal. apply IH; auto. intros r; split; intros Hr.
    + destruct (proj1 (H r) (or_intror Hr)) as [->|]; auto. specialize (L1 _ Hr). lia.
    + destruct (proj2 (H r) (or_intror Hr)) as [->|]; auto. specialize (L2 _ Hr). lia.
Qed.

Lemma incr_perm_eq l1 l2 : gsn_increasing l1 -> gsn_increasing l2 -> Permutation l1 l2 -> l1 = l2.
Proof.
  intros H1 H2 HP. apply incr_same_elements; auto.
  intros r; split; intros; [eapply Permutation_in; eauto|].
  eapply Permutation_in; [apply Permutation_sym|]; eauto.
Qed.

(** * Merge *)

(** What a pipe will still deliver. *)
Definition content (p : pipe) : list record := snd p :: before_error (it_chan (fst p)).
Definition contents (ps : list pipe) : list record := flat_map content ps.

Definition pipe_ok (p : pipe) : Prop := it_err (fst p) = None /\ gsn_increasing (content p).

Definition pipes_ok (ps : list pipe) : Prop :=
  Forall pipe_ok ps /\ NoDup (map r_gsn (contents ps)).

Lemma read_next_some it p : it_err it = None -> read_next it = Some p ->
  it_err (fst p) = None /\ content p = before_error (it_chan it).
Proof.
  unfold read_next, next. intros -> H. destruct (it_chan it) as [|[r|e] l]; cbn in *; try discriminate.
  injection H as <-. auto.
Qed.

Lemma read_next_none it : it_err it = None -> read_next it = None -> before_error (it_chan it) = [].
Proof.
  unfold read_next, next. intros -> H. destruct (it_chan it) as [|[r|e] l]; cbn in *; auto. discriminate.
Qed.

Lemma nth_split_set {A} (l : list A) i x : nth_error l i = Some x ->
  exists l1 l2, l = l1 ++ x :: l2 /\ length l1 = i /\ forall y, set_nth i y l = l1 ++ y :: l2.
Proof.
  revert i; induction l as [|a l IH]; intros [|i] H; cbn in H; try discriminate.
  - injection H as ->. exists [], l. repeat split.
  - destruct (IH _ H) as (l1 & l2 & -> & Hl & Hs). exists (a :: l1), l2. cbn. repeat split; auto.
    intros y. now rewrite Hs.
Qed.

Lemma last_app_single {A} (l : list A) x d : last (l ++ [x]) d = x.
Proof. induction l as [|a l IH]; cbn; auto. destruct (l ++ [x]) eqn:E; auto. destruct l; discriminate. Qed.

Lemma removelast_app_single {A} (l : list A) x : removelast (l ++ [x]) = l.
Proof. now rewrite removelast_app, app_nil_r by discriminate. Qed.

Lemma remove_pipe_perm ps i p : nth_error ps i = Some p ->
  exists l1 l2, ps = l1 ++ p :: l2 /\ Permutation (remove_pipe i ps) (l1 ++ l2).
Proof.
  intros H. destruct (nth_split_set _ _ _ H) as (l1 & l2 & E & Hl & Hs).
  exists l1, l2; split; auto. unfold remove_pipe.
  destruct ps as [|q ps]; [destruct i; discriminate|].
  rewrite Hs. rewrite E.
  destruct l2 as [|z l2 _] using rev_ind.
  - rewrite last_app_single, removelast_app_single, app_nil_r. reflexivity.
  - replace (l1 ++ p :: l2 ++ [z]) with ((l1 ++ p :: l2) ++ [z]) by now rewrite <- app_assoc.
    rewrite last_app_single.
    replace (l1 ++ z :: l2 ++ [z]) with ((l1 ++ z :: l2) ++ [z]) by now rewrite <- app_assoc.
    rewrite removelast_app_single. apply Permutation_app_head.
    apply Permutation_cons_append.
Qed.

Lemma contents_app a b : contents (a ++ b) = contents a ++ contents b.
Proof. unfold contents. now rewrite flat_map_app. Qed.

Lemma contents_perm a b : Permutation a b -> Permutation (contents a) (contents b).
Proof. intros. unfold contents. now apply Permutation_flat_map. Qed.

Lemma smallest_from_spec ps : forall best min i l0,
  length l0 = i ->
  (best < i)%nat \/ (best = 0 /\ i = 0)%nat ->
  (forall q, In q l0 -> min <= p_gsn q) ->
  ((best < i)%nat -> exists q, nth_error l0 best = Some q /\ p_gsn q = min) ->
  (i = 0%nat -> exists p t, ps = p :: t /\ min = p_gsn p) ->
  exists q, nth_error (l0 ++ ps) (smallest_from best min i ps) = Some q
            /\ forall q', In q' (l0 ++ ps) -> p_gsn q <= p_gsn q'.
Proof.
  induction ps as [|p ps IH]; intros best min i l0 Hl Hb Hmin Hbest H0; cbn [smallest_from].
  - rewrite app_nil_r. destruct Hb as [Hb|[-> ->]].
    + destruct (Hbest Hb) as (q & E & Hq). exists q. split; auto. intros; rewrite Hq; auto.
    + destruct (H0 eq_refl) as (? & ? & ? & _). discriminate.
  - assert (Hlen : length (l0 ++ [p]) = S i) by (rewrite app_length; cbn; lia).
    replace (l0 ++ p :: ps) with ((l0 ++ [p]) ++ ps) by now rewrite <- app_assoc.
    destruct (N.ltb_spec (p_gsn p) min) as [Hlt|Hge].
    + apply IH; [exact Hlen| | | |].
      * left. lia.
      * intros q Hq. apply in_app_or in Hq. destruct Hq as [Hq|[<-|[]]]; [specialize (Hmin _ Hq)|]; lia.
      * intros _. exists p. rewrite nth_error_app2, Hl, Nat.sub_diag by lia. auto.
      * discriminate.
    + apply IH; [exact Hlen| | | |].
      * left. destruct Hb as [|[-> ->]]; lia.
      * intros q Hq. apply in_app_or in Hq. destruct Hq as [Hq|[<-|[]]]; auto.
      * intros _. destruct Hb as [Hb|[-> ->]].
        -- destruct (Hbest Hb) as (q & E & Hq). exists q. split; auto.
           rewrite nth_error_app1; auto. apply nth_error_Some. congruence.
        -- destruct l0; [|discriminate]. destruct (H0 eq_refl) as (p' & t & E & ->).
           injection E as <- _. exists p. auto.
      * discriminate.
Qed.

Lemma smallest_spec ps : ps <> [] ->
  exists q, nth_error ps (smallest ps) = Some q /\ forall q', In q' ps -> p_gsn q <= p_gsn q'.
Proof.
  intros Hne. destruct ps as [|p ps]; [congruence|]. unfold smallest.
  apply (smallest_from_spec (p :: ps) 0 (p_gsn p) 0 []); cbn; auto.
  - intros q [].
  - lia.
  - eauto.
Qed.

Definition size (ps : list pipe) : nat := length (contents ps).

Lemma contents_in_ge ps q : Forall pipe_ok ps -> (forall p, In p ps -> p_gsn q <= p_gsn p) ->
  forall r, In r (contents ps) -> p_gsn q <= r_gsn r.
Proof.
  intros Hok Hmin r Hr. unfold contents in Hr. apply in_flat_map in Hr.
  destruct Hr as (p & Hp & Hr). specialize (Hmin _ Hp).
  rewrite Forall_forall in Hok. destruct (Hok _ Hp) as [_ Hs]. unfold content in *.
  destruct (incr_cons_inv _ _ Hs) as [_ Hlt]. destruct Hr as [<-|Hr]; auto.
  specialize (Hlt _ Hr). unfold p_gsn in *. lia.
Qed.

(** Sending the head of pipe [i] and advancing it takes exactly that record out of
    the multiset of what is left. *)
Lemma advance ps i it r : pipes_ok ps -> nth_error ps i = Some (it, r) ->
  match read_next it with
  | None => pipes_ok (remove_pipe i ps) /\ Permutation (contents ps) (r :: contents (remove_pipe i ps))
  | Some p => pipes_ok (set_nth i p ps) /\ Permutation (contents ps) (r :: contents (set_nth i p ps))
  end.
Proof.
  intros [Hok Hnd] Hn.
  destruct (read_next it) as [p|] eqn:E.
  - destruct (nth_split_set _ _ _ Hn) as (l1 & l2 & -> & Hl & Hs). rewrite Hs.
    assert (Hp : pipe_ok (it, r)) by (rewrite Forall_forall in Hok; apply Hok, in_or_app; cbn; auto).
    destruct Hp as [He Hsort]. cbn in He.
    destruct (read_next_some _ _ He E) as [He' Hc].
    assert (HP : Permutation (contents (l1 ++ (it, r) :: l2)) (r :: contents (l1 ++ p :: l2))).
    { rewrite !contents_app. cbn [contents flat_map]. fold (contents l2).
      rewrite Hc. unfold content at 1. cbn [snd fst].
      change ((r :: before_error (it_chan it)) ++ contents l2) with (r :: (before_error (it_chan it) ++ contents l2)).
      symmetry. apply Permutation_middle. }
    split; auto. split.
    + apply Forall_app in Hok. destruct Hok as [H1 H2]. inversion H2; subst.
      apply Forall_app; split; auto. constructor; auto. split; auto.
      rewrite Hc. unfold content in Hsort; cbn in Hsort. eapply incr_cons_inv; eauto.
    + apply (Permutation_map r_gsn) in HP. apply (Permutation_NoDup HP) in Hnd. cbn in Hnd. now inversion Hnd.
  - destruct (remove_pipe_perm _ _ _ Hn) as (l1 & l2 & -> & HPp).
    assert (Hp : pipe_ok (it, r)) by (rewrite Forall_forall in Hok; apply Hok, in_or_app; cbn; auto).
    destruct Hp as [He Hsort]. cbn in He.
    pose proof (read_next_none _ He E) as Hb.
    assert (HP : Permutation (contents (l1 ++ (it, r) :: l2)) (r :: contents (remove_pipe i (l1 ++ (it, r) :: l2)))).
    { rewrite (contents_perm _ _ HPp). rewrite !contents_app. cbn [contents flat_map]. fold (contents l2).
      unfold content at 1. cbn [snd fst]. rewrite Hb. cbn [app]. symmetry. apply Permutation_middle. }
    split; auto. split.
    + eapply Permutation_Forall; [apply Permutation_sym, HPp|].
      apply Forall_app in Hok. destruct Hok as [H1 H2]. inversion H2; subst. now apply Forall_app.
    + apply (Permutation_map r_gsn) in HP. apply (Permutation_NoDup HP) in Hnd. cbn in Hnd. now inversion Hnd.
Qed.

Definition point_ok (ps : list pipe) (m : mpoint) : Prop :=
  match m with
  | MOuter => True
  | MInner i pos => (i < length ps)%nat /\ forall r, In r (contents ps) -> pos < r_gsn r
  end.
Definition point_cost (m : mpoint) : nat := match m with MOuter => 0 | MInner _ _ => 1 end.

Lemma set_nth_length {A} i (x : A) l : length (set_nth i x l) = length l.
Proof. revert i; induction l as [|a l IH]; intros [|i]; cbn; auto. Qed.

Lemma nodup_head_least r l : NoDup (map r_gsn (r :: l)) -> (forall x, In x l -> r_gsn r <= r_gsn x) ->
  forall x, In x l -> r_gsn r < r_gsn x.
Proof.
  intros Hnd Hle x Hx. specialize (Hle _ Hx). cbn in Hnd. inversion Hnd as [|? ? Hni _]; subst.
  assert (r_gsn r <> r_gsn x) by (intros E; apply Hni; rewrite E; now apply in_map). lia.
Qed.

Lemma merge_loop_ok fuel : forall ps m, pipes_ok ps -> point_ok ps m ->
  (2 * size ps + point_cost m < fuel)%nat ->
  exists rs, merge_loop fuel ps m = Some rs /\ gsn_increasing rs /\ Permutation rs (contents ps).
Proof.
  induction fuel as [|f IH]; intros ps m Hok Hm Hf; [lia|].
  cbn [merge_loop].
  (* sending the least record r from pipe i *)
  assert (Hsend : forall i it r, nth_error ps i = Some (it, r) ->
            (forall x, In x (contents ps) -> r_gsn r <= r_gsn x) ->
            (2 * size ps < S f)%nat ->
            exists rs,
              match (match read_next it with
                     | None => Some (remove_pipe i ps, Some r, MOuter)
                     | Some p => Some (set_nth i p ps, Some r, MInner i (r_gsn r))
                     end) with
              | None => Some []
              | Some (ps1, sent, m1) =>
                  match merge_loop f ps1 m1 with
                  | None => None
                  | Some rs => Some (match sent with Some r => r :: rs | None => rs end)
                  end
              end = Some rs /\ gsn_increasing rs /\ Permutation rs (contents ps)).
  { intros i it r Hn Hleast Hsz. pose proof (advance ps i it r Hok Hn) as Hadv.
    destruct Hok as [Hokf Hnd].
    destruct (read_next it) as [p|] eqn:E; destruct Hadv as [Hok' HP].
    - assert (Hlt : forall x, In x (contents (set_nth i p ps)) -> r_gsn r < r_gsn x).
      { apply nodup_head_least.
        - eapply Permutation_NoDup; [apply Permutation_map, HP|exact Hnd].
        - intros x Hx. apply Hleast. eapply Permutation_in; [apply Permutation_sym, HP|]. now right. }
      destruct (IH (set_nth i p ps) (MInner i (r_gsn r))) as (rs & Ers & Hs & HPs); auto.
      + split; [|exact Hlt]. rewrite set_nth_length. apply nth_error_Some. congruence.
      + apply Permutation_length in HP. unfold size in *. cbn in HP. cbn [point_cost]. lia.
      + rewrite Ers. eexists; split; [reflexivity|]. split.
        * apply incr_cons; auto. intros b Hb. apply Hlt. eapply Permutation_in; eauto.
        * rewrite HP. now constructor.
    - assert (Hlt : forall x, In x (contents (remove_pipe i ps)) -> r_gsn r < r_gsn x).
      { apply nodup_head_least.
        - eapply Permutation_NoDup; [apply Permutation_map, HP|exact Hnd].
        - intros x Hx. apply Hleast. eapply Permutation_in; [apply Permutation_sym, HP|]. now right. }
      destruct (IH (remove_pipe i ps) MOuter) as (rs & Ers & Hs & HPs); auto.
      + exact I.
      + apply Permutation_length in HP. unfold size in *. cbn in HP. cbn [point_cost]. lia.
      + rewrite Ers. eexists; split; [reflexivity|]. split.
        * apply incr_cons; auto. intros b Hb. apply Hlt. eapply Permutation_in; eauto.
        * rewrite HP. now constructor. }
  destruct m as [|i pos]; cbn [merge_step].
  - destruct ps as [|p0 ps0] eqn:Eps.
    + cbn. exists []. repeat split; auto using incr_nil.
    + rewrite <- Eps in *. destruct (smallest_spec ps) as ([it r] & Hn & Hmin); [subst; discriminate|].
      rewrite Hn. apply Hsend; auto.
      * intros x Hx. eapply (contents_in_ge ps (it, r)); eauto. apply Hok.
      * cbn in Hf. lia.
  - destruct Hm as [Hi Hpos].
    destruct (nth_error ps i) as [[it r]|] eqn:Hn; [|apply nth_error_None in Hn; lia].
    destruct (N.eqb_spec (r_gsn r) (pos + 1)) as [Heq|Hneq].
    + apply Hsend; auto.
      * intros x Hx. specialize (Hpos _ Hx). lia.
      * cbn in Hf. lia.
    + destruct (IH ps MOuter) as (rs & Ers & Hs & HPs); auto.
      * exact I.
      * cbn in *. lia.
      * rewrite Ers. eauto.
Qed.

Lemma before_error_length l : (length (before_error l) <= length l)%nat.
Proof. induction l as [|[r|e] l IH]; cbn; lia. Qed.

Definition delivered_by (its : list iter) : list record := flat_map (fun it => before_error (it_chan it)) its.

Lemma prime_ok its : Forall (fun it => it_err it = None /\ gsn_increasing (before_error (it_chan it))) its ->
  contents (prime its) = delivered_by its /\ Forall pipe_ok (prime its).
Proof.
  induction its as [|it its IH]; intros H; cbn [prime].
  - split; auto.
  - inversion H as [|? ? [He Hs] Hrest]; subst. destruct (IH Hrest) as [E F].
    unfold delivered_by; cbn [flat_map]; fold (delivered_by its).
    destruct (read_next it) as [p|] eqn:En.
    + destruct (read_next_some _ _ He En) as [He' Hc]. split.
      * cbn [contents flat_map]. fold (contents (prime its)). now rewrite Hc, E.
      * constructor; auto. split; auto. now rewrite Hc.
    + rewrite (read_next_none _ He En). split; auto.
Qed.

Lemma delivered_length its :
  (length (delivered_by its) <= fold_right (fun it n => length (it_chan it) + n)%nat O its)%nat.
Proof.
  induction its as [|it its IH]; cbn; auto. rewrite app_length.
  pose proof (before_error_length (it_chan it)). unfold delivered_by in IH. lia.
Qed.

Lemma merge_ok its :
  Forall (fun it => it_err it = None /\ gsn_increasing (before_error (it_chan it))) its ->
  NoDup (map r_gsn (delivered_by its)) ->
  exists rs, merge_results its = Some (map RRec rs) /\ gsn_increasing rs
             /\ Permutation rs (delivered_by its).
Proof.
  intros H Hnd. destruct (prime_ok its H) as [Ec Hok].
  destruct (merge_loop_ok (merge_fuel its) (prime its) MOuter) as (rs & E & Hs & HP).
  - split; auto. now rewrite Ec.
  - exact I.
  - unfold size. rewrite Ec. pose proof (delivered_length its). unfold merge_fuel. cbn [point_cost]. lia.
  - exists rs. unfold merge_results. rewrite E. rewrite Ec in HP. auto.
Qed.

(** * Stream names *)

Lemma split_no_sep sep s : no_char sep s -> split_on sep s = [s].
Proof.
  induction s as [|a s IH]; cbn; auto. intros [Hne Hn].
  destruct (Ascii.eqb_spec a sep); [congruence|]. now rewrite IH.
Qed.

Lemma split_app sep a b : no_char sep a ->
  split_on sep (a ++ String sep b) = a :: split_on sep b.
Proof.
  induction a as [|x a IH]; cbn.
  - now rewrite Ascii.eqb_refl.
  - intros [Hne Hn]. destruct (Ascii.eqb_spec x sep); [congruence|]. now rewrite IH.
Qed.

Lemma split_nonempty sep s : split_on sep s <> [].
Proof. destruct s as [|a s]; cbn; [discriminate|]. destruct (Ascii.eqb a sep); [discriminate|].
  destruct (split_on sep s); discriminate. Qed.

(** Every piece of a split is free of the separator. *)
Lemma split_pieces sep s : forall p, In p (split_on sep s) -> no_char sep p.
Proof.
  induction s as [|a s IH]; cbn; intros p Hp.
  - destruct Hp as [<-|[]]. exact I.
  - destruct (Ascii.eqb_spec a sep).
    + destruct Hp as [<-|Hp]; [exact I|auto].
    + destruct (split_on sep s) as [|q qs] eqn:E.
      * destruct Hp as [<-|[]]. cbn; auto.
      * destruct Hp as [<-|Hp]; cbn.
        -- split; auto. apply IH; now left.
        -- apply IH; now right.
Qed.

Lemma parse_get_iff t i : parse_stream (get_stream t i) = Some (t, i) <-> no_char "!" t /\ no_char "!" i.
Proof.
  unfold parse_stream, get_stream. split.
  - intros H. destruct (split_on "!" (t ++ "!" ++ i)%string) as [|p0 [|p1 ps]] eqn:E; try discriminate.
    injection H as -> ->. split; eapply split_pieces; rewrite E; cbn; auto.
  - intros [Ht Hi]. cbn [append]. rewrite split_app by auto. rewrite split_no_sep by auto. reflexivity.
Qed.

Lemma parse_panics_iff s : parse_stream s = None <-> no_char "!" s.
Proof.
  unfold parse_stream. split.
  - intros H. induction s as [|a s IH]; cbn in *; auto.
    destruct (Ascii.eqb_spec a "!").
    + exfalso. destruct (split_on "!" s) eqn:E; [eapply split_nonempty; eauto|discriminate].
    + split; auto. apply IH. destruct (split_on "!" s) as [|p [|q qs]]; auto; discriminate.
  - intros H. now rewrite split_no_sep.
Qed.

Lemma get_stream_inj t i t' i' : no_char "!" t -> no_char "!" t' ->
  get_stream t i = get_stream t' i' -> t = t' /\ i = i'.
Proof.
  unfold get_stream. cbn [append]. revert t'. induction t as [|a t IH]; intros [|b t'] H H' E; cbn in *.
  - injection E as ->; auto.
  - injection E as <- _. tauto.
  - injection E as -> _. tauto.
  - injection E as -> E. destruct (IH t') as [-> ->]; tauto.
Qed.

(** * ReadNRecords *)

Lemma consume_ended fuel it : (0 < fuel)%nat -> it_err it <> None -> consume fuel it = Some ([], it).
Proof. destruct fuel; [lia|]. intros _ H. cbn. unfold next. destruct (it_err it); congruence. Qed.

Lemma read_n_loop_spec l : forall fuel total cnt r0, (length l < fuel)%nat ->
  exists it, read_n_loop fuel total cnt (mk_iter l r0 None)
             = Some (firstn (N.to_nat (total - cnt)) (before_error l), it)
    /\ (it_err it <> None \/ exists l', it = mk_iter l' (it_rec it) None /\ (length l' <= length l)%nat).
Proof.
  induction l as [|x l IH]; intros fuel total cnt r0 Hf; destruct fuel as [|f]; cbn in Hf; try lia.
  - cbn. eexists. rewrite firstn_nil. split; [reflexivity|]. right. exists []. cbn. auto.
  - destruct x as [r|e]; cbn [read_n_loop next it_err it_chan it_rec before_error].
    + destruct (N.ltb_spec total (cnt + 1)) as [Hlt|Hge].
      * eexists. replace (total - cnt) with 0 by lia. cbn. split; [reflexivity|].
        right. exists l. cbn. auto.
      * destruct (IH f total (cnt + 1) (Some r)) as (it & E & Hit); [lia|].
        rewrite E. exists it. split.
        -- replace (N.to_nat (total - cnt)) with (S (N.to_nat (total - (cnt + 1)))) by lia. reflexivity.
        -- destruct Hit as [|(l' & ? & ?)]; [auto|]. right. exists l'. cbn. split; auto; lia.
    + rewrite firstn_nil. eexists. split; [reflexivity|]. left. discriminate.
Qed.

Lemma read_n_ok n l : exists it,
  read_n_records n (new_iter l) = Some (firstn (N.to_nat n) (before_error l), it)
  /\ snd (next it) = false.
Proof.
  unfold read_n_records, new_iter. cbn [it_chan].
  destruct (read_n_loop_spec l (S (length l)) n 0 None) as (it & E & Hit); [lia|].
  rewrite E, N.sub_0_r. destruct Hit as [He|(l' & Hi & Hl)].
  - rewrite consume_ended by (auto; lia). eexists; split; [reflexivity|].
    unfold next. destruct (it_err it); [reflexivity|congruence].
  - rewrite Hi. destruct (consume_spec l' (S (length l)) (it_rec it)) as (it2 & E2 & He2 & _ & Hc); [lia|].
    rewrite E2. eexists; split; [reflexivity|]. unfold next.
    destruct (first_error l') eqn:F; rewrite He2; auto. rewrite Hc; auto.
Qed.

(** * Publishing *)

Lemma publish_all_spec cn consumer rs : forall k,
  exists m, (m <= length rs)%nat /\
    (publish_all cn consumer k rs = map RRec rs
     \/ publish_all cn consumer k rs = map RRec (firstn m rs) ++ [RErr ECanceled]
     \/ publish_all cn consumer k rs = map RRec (firstn m rs)).
Proof.
  induction rs as [|r rs IH]; intros k; cbn [publish_all].
  - exists O. cbn. auto.
  - unfold publish. destruct (done_at cn k).
    + exists O. cbn. destruct consumer; (split; [lia|auto]).
    + destruct (IH (S k)) as (m & Hm & H). exists (S m). cbn. split; [lia|].
      destruct H as [->|[->| ->]]; auto.
Qed.

Lemma publish_all_exact consumer rs : forall cn k,
  publish_all (Some (k + cn)%nat) consumer k rs =
  if Nat.leb (length rs) cn then map RRec rs
  else map RRec (firstn cn rs) ++ (if consumer then [RErr ECanceled] else []).
Proof.
  induction rs as [|r rs IH]; intros cn k; cbn [publish_all length]; auto.
  unfold publish, done_at. destruct cn as [|cn].
  - rewrite Nat.add_0_r, Nat.leb_refl. cbn. now destruct consumer.
  - replace (Nat.leb (k + S cn) k) with false by (symmetry; apply Nat.leb_gt; lia).
    replace (k + S cn)%nat with (S k + cn)%nat by lia. rewrite IH.
    cbn [Nat.leb firstn map app]. destruct (Nat.leb (length rs) cn); reflexivity.
Qed.

Lemma publish_all_none consumer rs : forall k, publish_all None consumer k rs = map RRec rs.
Proof. induction rs as [|r rs IH]; intros k; cbn; auto. now rewrite IH. Qed.
