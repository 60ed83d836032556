(** Proofs about a client that reconnects. *)
From Coq Require Import PeanoNat.
From Verif Require Import Base LogSpec Core CoreSpec CoreProofs LogProofs Broadcaster BroadcasterSpec
  BroadcasterProofs Subscription SubscriptionSpec SubscriptionProofs SubscriptionCover SubscriptionRun
  SubscriptionGap SubscriptionOnly StatsSpec StatsProofs Follow FollowSpec.

(** The steps of the server in a run of the whole. *)
Definition server_step (s : sys * follower) (l : flabel) : list label :=
  match l with
  | FSys a => [a]
  | FConnect i => [YStartFrom i (f_pos (snd s))]
  | _ => []
  end.
Fixpoint server (m : mode) (s : sys * follower) (ls : list flabel) : list label :=
  match ls with
  | [] => []
  | l :: rest => server_step s l ++ match fstep m s l with Some s1 => server m s1 rest | None => [] end
  end.

Lemma frun_app m ls1 : forall ls2 s, frun m s (ls1 ++ ls2) = match frun m s ls1 with Some s1 => frun m s1 ls2 | None => None end.
Proof. induction ls1 as [|l ls1 IH]; cbn; intros ls2 s; auto. destruct (fstep m s l); auto. Qed.

Lemma server_app m ls1 : forall ls2 s s1, frun m s ls1 = Some s1 -> server m s (ls1 ++ ls2) = server m s ls1 ++ server m s1 ls2.
Proof.
  induction ls1 as [|l ls1 IH]; cbn; intros ls2 s s1 H; [now injection H as <-|].
  destruct (fstep m s l) as [s2|]; [|discriminate]. rewrite <- app_assoc. now rewrite (IH _ _ _ H).
Qed.

Lemma fstep_server m s l s' : fstep m s l = Some s' -> yrun m (fst s) (server_step s l) = Some (fst s').
Proof.
  destruct s as [y f]. destruct l as [a|i| |]; cbn.
  - destruct (ystep m y a); [|discriminate]. intros [= <-]. reflexivity.
  - destruct (f_cur f); [discriminate|]. destruct (nth_error (y_subs y) i) as [u|]; [|discriminate].
    destruct (u_phase u); try discriminate. intros [= <-]. reflexivity.
  - destruct (f_cur f) as [[i k]|]; [|discriminate]. destruct (nth_error (y_subs y) i); [|discriminate].
    destruct (nth_error _ k); [|discriminate]. intros [= <-]. reflexivity.
  - destruct (f_cur f); [|discriminate]. intros [= <-]. reflexivity.
Qed.

Lemma frun_server m ls : forall s s', frun m s ls = Some s' -> yrun m (fst s) (server m s ls) = Some (fst s').
Proof.
  induction ls as [|l ls IH]; cbn; intros s s' H; [now injection H as <-|].
  destruct (fstep m s l) as [s1|] eqn:E; [|discriminate].
  rewrite run_app, (fstep_server _ _ _ _ E). now apply IH.
Qed.

Lemma in_server m ls a : forall s, In a (server m s ls) ->
  In (FSys a) ls \/ exists i g, a = YStartFrom i g /\ In (FConnect i) ls.
Proof.
  induction ls as [|l ls IH]; cbn; intros s H; [destruct H|].
  apply in_app_iff in H as [H|H].
  - destruct l as [b|i| |]; cbn in H; try (destruct H; fail).
    + destruct H as [->|[]]. auto.
    + destruct H as [<-|[]]. right. eauto 6.
  - destruct (fstep m s l) as [s1|]; [|destruct H].
    destruct (IH _ H) as [K|(i & g & E & K)]; [auto|]. right. eauto 6.
Qed.

Lemma server_in_turn m s ls : saves_in_turn ls -> in_turn (server m s ls).
Proof. intros T k H. apply in_server in H as [H|(i & g & E & _)]; [now apply T|discriminate]. Qed.

(** What a subscriber has been handed only grows. *)
Lemma change_got m y i u l u' : change m y i u l u' -> exists more, u_got u' = u_got u ++ more.
Proof.
  intros C. inversion C; subst; cbn; try (exists []; rewrite app_nil_r; reflexivity).
  - exists []. rewrite app_nil_r. destruct (gathered chans); [destruct second|]; reflexivity.
  - exists [r]. destruct ok; [destruct rest; [destruct second|]|destruct second]; reflexivity.
  - destruct (_ <=? _); [exists []; now rewrite app_nil_r|]. exists [r]. destruct ok; reflexivity.
Qed.

Lemma run_got m ls : forall y y' i u u', yrun m y ls = Some y' -> nth_error (y_subs y) i = Some u ->
  nth_error (y_subs y') i = Some u' -> exists more, u_got u' = u_got u ++ more.
Proof.
  induction ls as [|l ls IH]; cbn; intros y y' i u u' R Hi Hi'.
  - injection R as <-. exists []. rewrite app_nil_r. congruence.
  - destruct (ystep m y l) as [y1|] eqn:E; [|discriminate].
    destruct (ystep_sub _ _ _ _ _ _ E Hi) as (u1 & Hi1 & C). destruct (change_got _ _ _ _ _ _ C) as [a A].
    destruct (IH _ _ _ _ _ R Hi1 Hi') as [b B]. exists (a ++ b). rewrite B, A. now rewrite app_assoc.
Qed.

(** A start succeeds once. *)
Lemma only_one_start m y0 ls1 ls2 i g y u0 : yrun m y0 (ls1 ++ YStartFrom i g :: ls2) = Some y ->
  nth_error (y_subs y0) i = Some u0 -> u_phase u0 = PInit ->
  forall g', In (YStartFrom i g') (ls1 ++ YStartFrom i g :: ls2) -> g' = g.
Proof.
  intros R H0 P0 g' Hg. rewrite run_app in R. destruct (yrun m y0 ls1) as [y1|] eqn:R1; [|discriminate].
  cbn [yrun] in R. destruct (ystep m y1 (YStartFrom i g)) as [y2|] eqn:E; [|discriminate].
  assert (exists u1, nth_error (y_subs y1) i = Some u1 /\ u_phase u1 = PInit) as (u1 & Hi1 & P1).
  { cbn in E. destruct (nth_error (y_subs y1) i) as [u|]; [|discriminate]. destruct (u_phase u) eqn:P; try discriminate. eauto. }
  destruct (ystep_sub _ _ _ _ _ _ E Hi1) as (u2 & Hi2 & C).
  assert (P2 : u_phase u2 <> PInit).
  { cbn in E. rewrite Hi1, P1 in E. injection E as <-. cbn in Hi2. rewrite (nth_set_same _ _ _ _ Hi1) in Hi2.
    injection Hi2 as <-. discriminate. }
  assert (exists u3, nth_error (y_subs y) i = Some u3) as [u3 Hi3].
  { clear - R Hi2. revert y2 u2 R Hi2. induction ls2 as [|l ls IH]; cbn; intros y2 u2 R Hi2; [injection R as <-; eauto|].
    destruct (ystep m y2 l) as [z|] eqn:E; [|discriminate]. destruct (ystep_sub _ _ _ _ _ _ E Hi2) as (w & Hw & _). eauto. }
  apply in_app_iff in Hg as [Hg|[Hg|Hg]].
  - exfalso. destruct (run_split m ls1 y0 y1 i u0 u1) as [[_ X]|(l1 & l & l2 & z1 & v1 & z2 & v2 & -> & S & A1 & B1 & Q1 & A2 & B2 & C2 & A3 & X)]; auto.
    { apply (X _ Hg). right. eauto. }
    assert (N : u_phase v2 <> PInit).
    { destruct S as [->|[g0 ->]]; cbn in A2; rewrite B1, Q1 in A2; injection A2 as <-; cbn in B2;
        rewrite (nth_set_same _ _ _ _ B1) in B2; injection B2 as <-; cbn; [destruct (u_stop v1)|]; discriminate. }
    clear - A3 B2 N Hi1 P1. revert z2 v2 A3 B2 N. induction l2 as [|l l2 IH]; cbn; intros z v A B N.
    + injection A as <-. congruence.
    + destruct (ystep m z l) as [z1|] eqn:E; [|discriminate]. destruct (ystep_sub _ _ _ _ _ _ E B) as (w & Hw & C).
      destruct (change_started _ _ _ _ _ _ C N). eauto.
  - congruence.
  - exfalso. apply (run_started m ls2 y2 y i u2 u3 R Hi2 Hi3 P2 _ Hg). right. eauto.
Qed.

Lemma last_shift {A} (l : list A) : forall a n, last (a :: l) n = last l a.
Proof.
  induction l as [|b l IH]; intros a n; [reflexivity|].
  change (last (a :: b :: l) n) with (last (b :: l) n). now rewrite !IH.
Qed.

(** Committed records are numbered in the order of their commits. *)
Lemma saved_order m ls : forall y y', yrun m y ls = Some y' ->
  gsn_increasing (saved_by ls) /\ (forall r, In r (saved_by ls) -> l_last (y_log y) < r_gsn r <= l_last (y_log y'))
  /\ l_last (y_log y) <= l_last (y_log y').
Proof.
  assert (G : forall rs n, grows n rs = true -> gsn_increasing rs /\ (forall r, In r rs -> n < r_gsn r <= last (map r_gsn rs) n)
    /\ n <= last (map r_gsn rs) n).
  { induction rs as [|a rs IH]; cbn [grows]; intros n H; [split; [apply incr_nil|split; [intros ? []|cbn; lia]]|].
    apply andb_prop in H as [A B]. apply N.ltb_lt in A. destruct (IH _ B) as (I1 & I2 & I3).
    assert (EL : last (map r_gsn (a :: rs)) n = last (map r_gsn rs) (r_gsn a)).
    { cbn [map]. apply last_shift. }
    rewrite EL. split; [|split].
    - apply incr_cons; auto. intros b Hb. now apply I2.
    - intros r [<-|Hr]; [lia|]. specialize (I2 r Hr). lia.
    - lia. }
  induction ls as [|l ls IH]; cbn; intros y y' R.
  - injection R as <-. split; [apply incr_nil|]. split; [intros ? []|lia].
  - destruct (ystep m y l) as [y1|] eqn:E; [|discriminate]. destruct (IH _ _ R) as (I1 & I2 & I3).
    assert (LL : l_last (y_log y1) = l_last (y_log y) \/ exists rs, l = YCommit rs /\ grows (l_last (y_log y)) rs = true
      /\ l_last (y_log y1) = last (map r_gsn rs) (l_last (y_log y))).
    { destruct l; cbn [ystep] in E;
        repeat (match type of E with
          | (if ?b then _ else _) = _ => destruct b eqn:?
          | match ?x with _ => _ end = _ => destruct x eqn:?
          end; try discriminate E);
        try (injection E as <-; left; reflexivity).
      - injection E as <-. right. exists rs. repeat (match goal with K : (_ && _)%bool = true |- _ => apply andb_prop in K as [? ?] end). auto.
      - injection E as <-. left. unfold stop_listed.
        match goal with |- l_last (y_log (fold_left _ ?l ?z)) = _ => assert (X : forall l0 z0, y_log (fold_left (fun s i =>
          match nth_error (y_subs s) i with Some u => set_sub i (with_stop u) s | None => s end) l0 z0) = y_log z0) end.
        { induction l0 as [|j l0 IHl]; cbn; intros z0; auto. rewrite IHl. destruct (nth_error _ _); reflexivity. }
        rewrite X. reflexivity. }
    destruct LL as [LL|(rs & -> & Gr & LL)].
    + assert (N : match l with YCommit rs => rs = [] | _ => True end \/ exists rs, l = YCommit rs /\ grows (l_last (y_log y)) rs = true).
      { destruct l; auto. right. exists rs. split; auto. cbn in E. destruct (_ && _)%bool eqn:K; [|discriminate].
        repeat (match goal with K : (_ && _)%bool = true |- _ => apply andb_prop in K as [? ?] end). auto. }
      destruct N as [N|(rs & -> & Gr)].
      * assert (Z : match l with YCommit rs => rs | _ => [] end = []) by (destruct l; auto). rewrite Z. cbn [app].
        split; auto. split; [|lia]. intros r Hr. specialize (I2 r Hr). lia.
      * destruct (G _ _ Gr) as (G1 & G2 & G3).
        assert (LL' : l_last (y_log y1) = last (map r_gsn rs) (l_last (y_log y))).
        { cbn in E. destruct (_ && _)%bool; [|discriminate]. injection E as <-. reflexivity. }
        split; [|split; [|lia]].
        -- apply incr_app; auto. intros a b Ha Hb. specialize (G2 a Ha). specialize (I2 b Hb). lia.
        -- intros r Hr. apply in_app_iff in Hr as [Hr|Hr]; [specialize (G2 r Hr)|specialize (I2 r Hr)]; lia.
    + destruct (G _ _ Gr) as (G1 & G2 & G3). split; [|split; [|lia]].
      * apply incr_app; auto. intros a b Ha Hb. specialize (G2 a Ha). specialize (I2 b Hb). lia.
      * intros r Hr. apply in_app_iff in Hr as [Hr|Hr]; [specialize (G2 r Hr)|specialize (I2 r Hr)]; lia.
Qed.

(** * Leaving out immediate repetitions *)
Lemma once_cons_ne a l : (forall b t, l = b :: t -> r_gsn a <> r_gsn b) -> once (a :: l) = a :: once l.
Proof.
  intros H. destruct l as [|b t]; [reflexivity|]. cbn [once]. destruct (N.eqb_spec (r_gsn a) (r_gsn b)) as [E|]; auto.
  exfalso. now apply (H b t).
Qed.
Lemma once_cons_eq a b t : r_gsn a = r_gsn b -> once (a :: b :: t) = once (b :: t).
Proof. intros E. cbn [once]. now rewrite E, N.eqb_refl. Qed.
Lemma once_in l r : In r (once l) -> In r l.
Proof.
  induction l as [|a l IH]; [auto|]. destruct l as [|b l]; [auto|]. cbn [once].
  destruct (_ =? _); intros H; [right; auto|]. destruct H as [->|H]; [now left|right; auto].
Qed.
Lemma once_snoc_new l r : (forall l' r0, l = l' ++ [r0] -> r_gsn r0 <> r_gsn r) -> once (l ++ [r]) = once l ++ [r].
Proof.
  induction l as [|a l IH]; intros H; [reflexivity|]. destruct l as [|b l].
  - cbn. destruct (N.eqb_spec (r_gsn a) (r_gsn r)); auto. exfalso. now apply (H [] a).
  - assert (IH' : once ((b :: l) ++ [r]) = once (b :: l) ++ [r]).
    { apply IH. intros l' r0 E. apply (H (a :: l')). rewrite E. reflexivity. }
    change ((a :: b :: l) ++ [r]) with (a :: b :: (l ++ [r])). change ((b :: l) ++ [r]) with (b :: (l ++ [r])) in IH'.
    destruct (N.eq_dec (r_gsn a) (r_gsn b)) as [E|N].
    + rewrite (once_cons_eq a b (l ++ [r])), (once_cons_eq a b l) by auto. exact IH'.
    + rewrite (once_cons_ne a (b :: l ++ [r])), (once_cons_ne a (b :: l)) by (intros b' t' [= <- <-]; auto). rewrite IH'. reflexivity.
Qed.
Lemma once_snoc_same l r : once ((l ++ [r]) ++ [r]) = once (l ++ [r]).
Proof.
  induction l as [|a l IH]; [cbn; now rewrite N.eqb_refl|]. destruct l as [|b l].
  - cbn. now rewrite N.eqb_refl.
  - change (((a :: b :: l) ++ [r]) ++ [r]) with (a :: b :: ((l ++ [r]) ++ [r])).
    change ((a :: b :: l) ++ [r]) with (a :: b :: (l ++ [r])).
    change (((b :: l) ++ [r]) ++ [r]) with (b :: ((l ++ [r]) ++ [r])) in IH. change ((b :: l) ++ [r]) with (b :: (l ++ [r])) in IH.
    destruct (N.eq_dec (r_gsn a) (r_gsn b)) as [E|N].
    + rewrite (once_cons_eq a b ((l ++ [r]) ++ [r])), (once_cons_eq a b (l ++ [r])) by auto. exact IH.
    + rewrite (once_cons_ne a (b :: (l ++ [r]) ++ [r])), (once_cons_ne a (b :: l ++ [r])) by (intros b' t' [= <- <-]; auto). now rewrite IH.
Qed.

Lemma firstn_S_in {A} (l : list A) k r : nth_error l k = Some r -> firstn (S k) l = firstn k l ++ [r].
Proof. revert k. induction l as [|a l IH]; intros [|k]; cbn; intros H; try discriminate; [congruence|]. specialize (IH k H). cbn in IH. now rewrite IH. Qed.

Lemma incr_nth l : forall j k a b, gsn_increasing l -> nth_error l j = Some a -> nth_error l k = Some b ->
  r_gsn a <= r_gsn b -> (j <= k)%nat.
Proof.
  induction l as [|x l IH]; intros j k a b I Hj Hk Le; [destruct j; discriminate|].
  apply incr_cons_inv in I as [I X]. destruct j as [|j]; [lia|]. destruct k as [|k]; cbn in Hj, Hk.
  - injection Hk as <-. apply nth_error_In in Hj. specialize (X a Hj). lia.
  - specialize (IH j k a b I Hj Hk Le). lia.
Qed.
Lemma incr_nth_lt l j k a b : gsn_increasing l -> nth_error l j = Some a -> nth_error l k = Some b ->
  (j < k)%nat -> r_gsn a < r_gsn b.
Proof.
  intros I Hj Hk L. destruct (N.lt_ge_cases (r_gsn a) (r_gsn b)); auto.
  assert (k <= j)%nat by (eapply incr_nth; eauto). lia.
Qed.

Lemma server_saved m ls : forall s s', frun m s ls = Some s' -> saved_by (server m s ls) = commits ls.
Proof.
  induction ls as [|l ls IH]; cbn; intros s s' H; [reflexivity|].
  destruct (fstep m s l) as [s1|] eqn:E; [|discriminate].
  unfold saved_by. rewrite flat_map_app. fold (saved_by (server m s1 ls)). rewrite (IH _ _ H).
  unfold commits. f_equal. destruct l as [a|i| |]; cbn; auto. now rewrite app_nil_r.
Qed.

(** * The invariant of the client *)
Section Following.
Variables (m : mode) (subs : list (list query * nat)) (qs : list query).
Hypothesis AF : asks_for qs.
Hypothesis ND : NoDup qs.

Definition start : sys * follower := (sys_init subs, follower_new).

(** The call in progress: served by [i], started from [g] in state [y1]. *)
Record serving (ls : list flabel) (y : sys) (f : follower) (i k : nat) (ls1 ls2 : list label) (g : N) (y1 : sys) (u : sub) : Prop := {
  c_split : server m start ls = ls1 ++ YStartFrom i g :: ls2;
  c_run   : yrun m (sys_init subs) ls1 = Some y1;
  c_sub   : nth_error (y_subs y) i = Some u;
  c_conn  : In (FConnect i) ls;
  c_len   : (k <= length (u_got u))%nat;
  c_in    : forall r, In r (firstn k (u_got u)) -> In r (f_printed f);
  c_none  : k = 0%nat -> f_pos f = g;
  c_some  : forall j, k = S j -> exists r, nth_error (u_got u) j = Some r /\ r_gsn r = f_pos f;
  c_from  : g <= f_pos f
}.

Record following (ls : list flabel) (y : sys) (f : follower) : Prop := {
  w_last  : f_pos f = last (map r_gsn (f_printed f)) 0;
  w_le    : f_pos f <= l_last (y_log y);
  w_max   : forall r, In r (f_printed f) -> r_gsn r <= f_pos f;
  w_saved : forall r, In r (f_printed f) -> In r (commits ls);
  w_asked : forall r, In r (f_printed f) -> asked qs r;
  w_once  : gsn_increasing (once (f_printed f));
  w_conn  : f_cur f <> None -> (1 <= connects ls)%nat;
  w_count : f_printed f = [] \/ (length (f_printed f) + 1 + (match f_cur f with Some (_, O) => 1 | _ => 0 end)
              <= length (once (f_printed f)) + connects ls)%nat;
  w_cur   : forall i k, f_cur f = Some (i, k) -> exists ls1 ls2 g y1 u, serving ls y f i k ls1 ls2 g y1 u
}.

Lemma commits_snoc ls l : commits (ls ++ [l]) = commits ls ++ match l with FSys (YCommit rs) => rs | _ => [] end.
Proof. unfold commits. rewrite flat_map_app. cbn. now rewrite app_nil_r. Qed.
Lemma connects_snoc ls l : connects (ls ++ [l]) = (connects ls + match l with FConnect _ => 1 | _ => 0 end)%nat.
Proof. unfold connects. rewrite filter_app, app_length. destruct l; reflexivity. Qed.

(** What the server has handed over on the present call. *)
Lemma serving_order ls y f i k ls1 ls2 g y1 u : frun m start ls = Some (y, f) -> asking subs qs ls ->
  l_last (y_log y) < max64 -> f_pos f <= l_last (y_log y) -> serving ls y f i k ls1 ls2 g y1 u ->
  gsn_increasing (u_got u) /\ (forall r, In r (u_got u) -> g <= r_gsn r /\ In r (commits ls) /\ asked qs r /\ r_gsn r <= l_last (y_log y)).
Proof.
  intros R A LM PL C. destruct (A i (c_conn _ _ _ _ _ _ _ _ _ _ C)) as [cap Hs].
  pose proof (frun_server _ _ _ _ R) as RS. cbn [fst start] in RS.
  assert (H0 : nth_error (y_subs (sys_init subs)) i = Some (new_sub qs cap)) by (cbn; rewrite nth_error_map, Hs; reflexivity).
  pose proof RS as RS'. rewrite (c_split _ _ _ _ _ _ _ _ _ _ C) in RS'.
  assert (G : forall g', In (YStartFrom i g') (server m start ls) -> g' = g).
  { intros g' Hg. rewrite (c_split _ _ _ _ _ _ _ _ _ _ C) in Hg. now apply (only_one_start _ _ _ _ _ _ _ _ RS' H0 eq_refl). }
  pose proof (c_from _ _ _ _ _ _ _ _ _ _ C).
  destruct (run_ordered m subs (server m start ls) y i qs cap u) as [O F]; auto.
  { intros g' Hg. rewrite (G g' Hg). lia. }
  { exact (c_sub _ _ _ _ _ _ _ _ _ _ C). }
  split; auto. intros r Hr.
  assert (Hs' : In r (saved_by (server m start ls))) by (eapply got_saved; eauto; exact (c_sub _ _ _ _ _ _ _ _ _ _ C)).
  split; [|split; [|split]].
  - apply (F g); auto. rewrite (c_split _ _ _ _ _ _ _ _ _ _ C). apply in_app_iff. right. now left.
  - now rewrite (server_saved _ _ _ _ R) in Hs'.
  - eapply got_asked; eauto. exact (c_sub _ _ _ _ _ _ _ _ _ _ C).
  - destruct (saved_order _ _ _ _ RS) as (_ & L & _). now apply L.
Qed.

Lemma fstep_last s l s' : fstep m s l = Some s' -> l_last (y_log (fst s)) <= l_last (y_log (fst s')).
Proof. intros E. apply fstep_server in E. now apply saved_order in E as (_ & _ & E). Qed.

Lemma following_run ls : forall y f, frun m start ls = Some (y, f) -> asking subs qs ls -> l_last (y_log y) < max64 -> following ls y f.
Proof.
  induction ls as [|l ls IH] using rev_ind; intros y' f' R A LM.
  { injection R as <- <-. constructor; cbn; auto; try lia; try (intros; contradiction); try apply incr_nil; intros; try discriminate; now exfalso. }
  rewrite frun_app in R. destruct (frun m start ls) as [[y f]|] eqn:R0; [|discriminate].
  cbn [frun] in R. destruct (fstep m (y, f) l) as [s'|] eqn:E; [|discriminate]. injection R as ->.
  pose proof (fstep_last _ _ _ E) as LL. cbn [fst] in LL.
  assert (A0 : asking subs qs ls) by (intros i Hi; apply A; apply in_app_iff; auto).
  specialize (IH y f eq_refl A0 ltac:(lia)). destruct IH as [W1 W2 W3 W4 W5 W6 W7 W8 W9].
  assert (SV : server m start (ls ++ [l]) = server m start ls ++ server_step (y, f) l).
  { rewrite (server_app _ _ _ _ _ R0). cbn [server]. rewrite E, app_nil_r. reflexivity. }
  assert (W4' : forall r, In r (f_printed f) -> In r (commits (ls ++ [l]))).
  { intros r Hr. rewrite commits_snoc. apply in_app_iff. auto. }
  destruct l as [a|i| |]; cbn [fstep] in E.
  - destruct (ystep m y a) as [y1|] eqn:Ey; [|discriminate]. injection E as <- <-.
    constructor; auto; try lia; rewrite ?connects_snoc, ?Nat.add_0_r; auto.
    intros i k Hc. destruct (W9 i k Hc) as (ls1 & ls2 & g & z1 & u & C).
    destruct (ystep_sub _ _ _ _ _ _ Ey (c_sub _ _ _ _ _ _ _ _ _ _ C)) as (u' & Hu' & Ch).
    destruct (change_got _ _ _ _ _ _ Ch) as [more G].
    exists ls1, (ls2 ++ [a]), g, z1, u'. destruct C as [C1 C2 C3 C4 C5 C6 C7 C8 C9]. constructor; auto.
    + rewrite SV, C1. cbn. now rewrite <- app_assoc.
    + apply in_app_iff. auto.
    + rewrite G, app_length. lia.
    + intros r Hr. apply C6. rewrite G in Hr. now rewrite firstn_app, (proj2 (Nat.sub_0_le _ _) C5), firstn_O, app_nil_r in Hr.
    + intros j ->. destruct (C8 j eq_refl) as (r & N1 & N2). exists r. split; auto. rewrite G, nth_error_app1; auto.
  - destruct (f_cur f) as [|] eqn:Ec; [discriminate|].
    destruct (ystep m y (YStartFrom i (f_pos f))) as [y1|] eqn:Ey; [|discriminate]. injection E as <- <-.
    constructor; cbn [f_pos f_printed f_cur]; auto; try lia; rewrite ?connects_snoc; try lia.
    { destruct W8 as [W8|W8]; auto. right. lia. }
    intros j k [= <- <-].
    assert (exists u, nth_error (y_subs y) i = Some u /\ u_phase u = PInit) as (u & Hi & P).
    { cbn in Ey. destruct (nth_error (y_subs y) i) as [u|]; [|discriminate]. destruct (u_phase u) eqn:P; try discriminate. eauto. }
    destruct (ystep_sub _ _ _ _ _ _ Ey Hi) as (u' & Hu' & Ch).
    exists (server m start ls), [], (f_pos f), y, u'. constructor; auto; cbn [f_printed f_pos].
    + exact (frun_server _ _ _ _ R0).
    + apply in_app_iff. right. now left.
    + lia.
    + intros r [].
    + intros j H. discriminate.
    + lia.
  - destruct (f_cur f) as [[i k]|] eqn:Ec; [|discriminate].
    destruct (nth_error (y_subs y) i) as [u|] eqn:Hi; [|discriminate].
    destruct (nth_error (u_got u) k) as [r|] eqn:Hk; [|discriminate]. injection E as <- <-.
    destruct (W9 i k eq_refl) as (ls1 & ls2 & g & z1 & u0 & C).
    assert (u0 = u) by (pose proof (c_sub _ _ _ _ _ _ _ _ _ _ C); congruence). subst u0.
    destruct (serving_order _ _ _ _ _ _ _ _ _ _ R0 A0 ltac:(lia) W2 C) as [GI GP].
    pose proof (nth_error_In _ _ Hk) as Hin. destruct (GP r Hin) as (Gg & Gc & Ga & Gl).
    assert (PR : f_pos f <= r_gsn r).
    { destruct k as [|j]; [rewrite (c_none _ _ _ _ _ _ _ _ _ _ C eq_refl); auto|].
      destruct (c_some _ _ _ _ _ _ _ _ _ _ C j eq_refl) as (r0 & N1 & <-).
      pose proof (incr_nth_lt _ j (S j) r0 r GI N1 Hk ltac:(lia)). lia. }
    assert (PS : k <> 0%nat -> f_pos f < r_gsn r).
    { intros Nk. destruct k as [|j]; [contradiction|].
      destruct (c_some _ _ _ _ _ _ _ _ _ _ C j eq_refl) as (r0 & N1 & <-).
      apply (incr_nth_lt _ j (S j) r0 r GI N1 Hk). lia. }
    (* the last printed one *)
    assert (LP : f_printed f = [] \/ exists l' r0, f_printed f = l' ++ [r0] /\ r_gsn r0 = f_pos f).
    { destruct (f_printed f) as [|x t] eqn:Ep; [auto|]. right. destruct (@exists_last _ (x :: t)) as (l' & r0 & El); [discriminate|].
      exists l', r0. split; auto. rewrite W1, El, map_app. cbn [map]. rewrite last_last. reflexivity. }
    assert (SO : gsn_increasing (commits ls)).
    { rewrite <- (server_saved _ _ _ _ R0). exact (proj1 (saved_order _ _ _ _ (frun_server _ _ _ _ R0))). }
    assert (ONCE : (f_pos f = r_gsn r /\ f_printed f <> [] /\ once (f_printed f ++ [r]) = once (f_printed f))
      \/ once (f_printed f ++ [r]) = once (f_printed f) ++ [r] /\ (f_printed f = [] \/ f_pos f < r_gsn r)).
    { destruct (N.eq_dec (f_pos f) (r_gsn r)) as [Eq|Ne].
      - destruct LP as [LP|(l' & r0 & LP & LG)]; [right; rewrite LP; auto|left].
        assert (r0 = r).
        { destruct (In_nth_error _ _ (W4 r0 ltac:(rewrite LP; apply in_app_iff; right; now left))) as [a Ha].
          destruct (In_nth_error _ _ Gc) as [b Hb].
          pose proof (incr_nth _ a b _ _ SO Ha Hb ltac:(lia)). pose proof (incr_nth _ b a _ _ SO Hb Ha ltac:(lia)).
          assert (a = b) by lia. subst b. congruence. }
        subst r0. split; auto. split; [rewrite LP; destruct l'; discriminate|]. rewrite LP. apply once_snoc_same.
      - right. split; [|right; lia]. apply once_snoc_new. intros l' r0 El.
        assert (r_gsn r0 = f_pos f) by (rewrite W1, El, map_app; cbn [map]; rewrite last_last; reflexivity). lia. }
    constructor; cbn [f_pos f_printed f_cur]; rewrite ?connects_snoc, ?Nat.add_0_r.
    + rewrite map_app. cbn [map]. rewrite last_last. reflexivity.
    + auto.
    + intros x Hx. apply in_app_iff in Hx as [Hx|[<-|[]]]; [|lia]. specialize (W3 x Hx). lia.
    + intros x Hx. apply in_app_iff in Hx as [Hx|[<-|[]]]; auto. rewrite commits_snoc, app_nil_r. auto.
    + intros x Hx. apply in_app_iff in Hx as [Hx|[<-|[]]]; auto.
    + destruct ONCE as [(_ & _ & ->)|[-> D]]; auto. apply incr_app; auto.
      { apply incr_cons; [apply incr_nil|intros ? []]. }
      intros x b Hx [<-|[]]. apply once_in in Hx. destruct D as [D|D]; [rewrite D in Hx; destruct Hx|]. specialize (W3 x Hx). lia.
    + intros _. apply W7. discriminate.
    + right. assert (1 <= connects ls)%nat by (apply W7; discriminate).
      destruct ONCE as [(Ep & Np & ->)|[-> D]]; rewrite ?app_length; cbn [length].
      * destruct W8 as [W8|W8]; [contradiction|].
        assert (k = 0%nat). { destruct (Nat.eq_dec k 0); auto. specialize (PS n). lia. } subst k. lia.
      * destruct W8 as [W8|W8]; [rewrite W8; cbn; lia|]. lia.
    + intros i' k' [= <- <-]. exists ls1, ls2, g, z1, u. destruct C as [C1 C2 C3 C4 C5 C6 C7 C8 C9]. constructor; cbn [f_pos f_printed]; auto.
      * rewrite SV, C1. cbn. rewrite app_nil_r. reflexivity.
      * apply in_app_iff. auto.
      * assert (k < length (u_got u))%nat by (apply nth_error_Some; congruence). lia.
      * intros x Hx. rewrite (firstn_S_in _ _ _ Hk) in Hx. apply in_app_iff. apply in_app_iff in Hx as [Hx|[<-|[]]]; auto. right. now left.
      * intros H. discriminate.
      * intros j [= <-]. eauto.
  - destruct (f_cur f) as [[i k]|] eqn:Ec; [|discriminate]. injection E as <- <-.
    constructor; cbn [f_pos f_printed f_cur]; auto; rewrite ?connects_snoc, ?Nat.add_0_r; auto; try discriminate.
    + destruct W8 as [W8|W8]; auto. right. destruct k; lia.
Qed.
End Following.

(** * No gap *)
Section Covered.
Variables (m : mode) (subs : list (list query * nat)) (q : query).

Lemma single_asks : asks_for [q].
Proof. destruct q as [t|]; [right; exists [t]; reflexivity|left; reflexivity]. Qed.
Lemma single_nodup : NoDup [q].
Proof. constructor; [intros []|constructor]. Qed.

Lemma covered_run ls : forall y f, frun m (start subs) ls = Some (y, f) -> asking subs [q] ls -> l_last (y_log y) < max64 ->
  m_locked m = true \/ saves_in_turn ls -> reads_fine ls ->
  forall r, In r (l_recs (y_log y)) -> asked [q] r -> r_gsn r <= f_pos f -> In r (f_printed f).
Proof.
  induction ls as [|l ls IH] using rev_ind; intros y' f' R A LM O RF r Hr Ha Le.
  { injection R as <- <-. destruct Hr. }
  pose proof R as RW.
  rewrite frun_app in R. destruct (frun m (start subs) ls) as [[y f]|] eqn:R0; [|discriminate].
  cbn [frun] in R. destruct (fstep m (y, f) l) as [s'|] eqn:E; [|discriminate]. injection R as ->.
  pose proof (fstep_last _ _ _ _ E) as LL. cbn [fst] in LL.
  assert (A0 : asking subs [q] ls) by (intros i Hi; apply A; apply in_app_iff; auto).
  assert (O0 : m_locked m = true \/ saves_in_turn ls) by (destruct O as [O|O]; auto; right; intros k Hk; apply O; apply in_app_iff; auto).
  assert (RF0 : reads_fine ls) by (intros i k Hi Hk; apply (RF i k); apply in_app_iff; auto).
  pose proof (following_run m subs [q] single_asks single_nodup ls y f R0 A0 ltac:(lia)) as W.
  specialize (IH y f eq_refl A0 ltac:(lia) O0 RF0).
  pose proof (frun_server _ _ _ _ R0) as RS. cbn [fst start] in RS.
  destruct (yrun_log _ _ _ _ RS (log_sorted_init subs)) as [S _].
  destruct l as [a|i| |]; cbn [fstep] in E.
  - destruct (ystep m y a) as [y1|] eqn:Ey; [|discriminate]. injection E as <- <-.
    destruct (ystep_log _ _ _ _ Ey S) as [_ [_ L]]. destruct (L r Hr) as [B|B]; [auto|].
    pose proof (w_le _ _ _ _ _ _ W). lia.
  - destruct (f_cur f) as [|]; [discriminate|].
    destruct (ystep m y (YStartFrom i (f_pos f))) as [y1|] eqn:Ey; [|discriminate]. injection E as <- <-. cbn [f_printed f_pos] in *.
    destruct (ystep_log _ _ _ _ Ey S) as [_ [_ L]]. destruct (L r Hr) as [B|B]; [auto|].
    pose proof (w_le _ _ _ _ _ _ W). lia.
  - destruct (f_cur f) as [[i k]|] eqn:Ec; [|discriminate].
    destruct (nth_error (y_subs y) i) as [u|] eqn:Hi; [|discriminate].
    destruct (nth_error (u_got u) k) as [r'|] eqn:Hk; [|discriminate]. injection E as <- <-. cbn [f_printed f_pos] in *.
    apply in_app_iff. destruct (N.le_gt_cases (r_gsn r) (f_pos f)) as [L|G]; [left; auto|].
    destruct (w_cur _ _ _ _ _ _ W i k Ec) as (ls1 & ls2 & g & z1 & u0 & C).
    assert (u0 = u) by (pose proof (c_sub _ _ _ _ _ _ _ _ _ _ _ _ C); congruence). subst u0.
    destruct (serving_order m subs [q] single_asks single_nodup _ _ _ _ _ _ _ _ _ _ R0 A0 ltac:(lia) (w_le _ _ _ _ _ _ W) C) as [GI GP].
    destruct (A0 i (c_conn _ _ _ _ _ _ _ _ _ _ _ _ C)) as [cap Hs].
    pose proof (c_split _ _ _ _ _ _ _ _ _ _ _ _ C) as SP. rewrite SP in RS.
    pose proof (c_from _ _ _ _ _ _ _ _ _ _ _ _ C) as CF. pose proof (w_le _ _ _ _ _ _ W) as WL.
    assert (Hg : In r (u_got u)).
    { apply (run_gapless m subs ls1 ls2 i q cap g z1 y u) with (r' := r'); auto.
      - exact (c_run _ _ _ _ _ _ _ _ _ _ _ _ C).
      - rewrite <- SP. destruct O0 as [O0|O0]; auto. right. now apply server_in_turn.
      - intros j Hj. assert (Hj' : In (YFetch i (Some j)) (server m (start subs) ls)) by (rewrite SP; apply in_app_iff; right; now right).
        apply in_server in Hj' as [Hj'|(i' & g' & X & _)]; [|discriminate].
        exact (RF0 i j (c_conn _ _ _ _ _ _ _ _ _ _ _ _ C) Hj').
      - lia.
      - eapply nth_error_In; eauto.
      - destruct Ha as [[Ha|[]]|[Ha|[]]]; rewrite Ha; cbn; auto. apply String.eqb_refl.
      - left. lia. }
    destruct (In_nth_error _ _ Hg) as [j Hj].
    pose proof (incr_nth _ j k _ _ GI Hj Hk Le).
    destruct (Nat.eq_dec j k) as [->|N]; [right; left; congruence|left].
    apply (c_in _ _ _ _ _ _ _ _ _ _ _ _ C).
    assert (X : nth_error (firstn k (u_got u)) j = Some r); [|eapply nth_error_In; eauto].
    clear - Hj H N. revert j k Hj H N. induction (u_got u) as [|x t IHt]; intros [|j] [|k] Hj H N; cbn in *; try discriminate; try lia; auto.
    apply IHt; auto; lia.
  - destruct (f_cur f) as [[i k]|] eqn:Ec; [|discriminate]. injection E as <- <-. cbn [f_printed f_pos] in *. auto.
Qed.

(** Once the present call is live and nothing is on its way, everything was printed. *)
Lemma caught_up ls y f i u : frun m (start subs) ls = Some (y, f) -> asking subs [q] ls -> l_last (y_log y) < max64 ->
  m_locked m = true \/ saves_in_turn ls -> reads_fine ls -> not_slow i ls ->
  f_cur f = Some (i, length (u_got u)) -> nth_error (y_subs y) i = Some u -> u_phase u = PLive -> quiet y u ->
  forall r, In r (l_recs (y_log y)) -> asked [q] r -> In r (f_printed f).
Proof.
  intros R A LM O RF NS Hc Hi P Q r Hr Ha.
  destruct (N.le_gt_cases (r_gsn r) (f_pos f)) as [L|G]; [eapply covered_run; eauto|].
  pose proof (following_run m subs [q] single_asks single_nodup ls y f R A LM) as W.
  destruct (w_cur _ _ _ _ _ _ W i _ Hc) as (ls1 & ls2 & g & z1 & u0 & C).
  assert (u0 = u) by (pose proof (c_sub _ _ _ _ _ _ _ _ _ _ _ _ C); congruence). subst u0.
  destruct (A i (c_conn _ _ _ _ _ _ _ _ _ _ _ _ C)) as [cap Hs].
  pose proof (frun_server _ _ _ _ R) as RS. cbn [fst start] in RS.
  pose proof (c_split _ _ _ _ _ _ _ _ _ _ _ _ C) as SP. rewrite SP in RS.
  pose proof (c_from _ _ _ _ _ _ _ _ _ _ _ _ C) as CF. pose proof (w_le _ _ _ _ _ _ W) as WL.
  apply (c_in _ _ _ _ _ _ _ _ _ _ _ _ C). rewrite firstn_all.
  apply (run_complete m subs ls1 ls2 i q cap g z1 y u); auto; try lia.
  - exact (c_run _ _ _ _ _ _ _ _ _ _ _ _ C).
  - rewrite <- SP. destruct O as [O|O]; auto. right. now apply server_in_turn.
  - rewrite <- SP. intros a Hin. apply in_server in Hin as [Hin|(i' & g' & -> & _)]; [|exact Logic.I].
    destruct a; auto. destruct fail; auto. intros ->. exact (RF i n (c_conn _ _ _ _ _ _ _ _ _ _ _ _ C) Hin).
  - destruct Ha as [[Ha|[]]|[Ha|[]]]; rewrite Ha; cbn; auto. apply String.eqb_refl.
Qed.
End Covered.

(** * What a new call starts with *)
Lemma quiet_client m : forall ls s s', frun m s ls = Some s' -> (forall l, In l ls -> exists a, l = FSys a) -> snd s' = snd s.
Proof.
  induction ls as [|l ls IH]; cbn; intros s s' R H; [now injection R as <-|].
  destruct (fstep m s l) as [s1|] eqn:E; [|discriminate]. rewrite (IH s1 s'); auto.
  destruct (H l (or_introl eq_refl)) as [a ->]. destruct s as [y f]. cbn in E. destruct (ystep m y a); [|discriminate].
  injection E as <-. reflexivity.
Qed.

Lemma first_again m subs q ls i la y f y2 f2 l r : 
  frun m (start subs) ls = Some (y, f) -> f_printed f = l ++ [r] -> In r (l_recs (y_log y)) ->
  frun m (y, f) (FConnect i :: la ++ [FRecv]) = Some (y2, f2) -> (forall x, In x la -> exists a, x = FSys a) ->
  asking subs [q] (ls ++ FConnect i :: la) -> l_last (y_log y2) < max64 ->
  m_locked m = true \/ saves_in_turn (ls ++ FConnect i :: la) -> reads_fine (ls ++ FConnect i :: la) ->
  In r (l_recs (y_log y2)) -> f_printed f2 = f_printed f ++ [r].
Proof.
  intros R EP Hr R2 HA A LM O RF Hr2.
  assert (A0 : asking subs [q] ls) by (intros j Hj; apply A; apply in_app_iff; auto).
  change (FConnect i :: la ++ [FRecv]) with ((FConnect i :: la) ++ [FRecv]) in R2. rewrite frun_app in R2.
  destruct (frun m (y, f) (FConnect i :: la)) as [[y1 f1]|] eqn:R1; [|discriminate].
  assert (RA : frun m (start subs) (ls ++ FConnect i :: la) = Some (y1, f1)) by (rewrite frun_app, R; exact R1).
  cbn [frun] in R2. destruct (fstep m (y1, f1) FRecv) as [s2|] eqn:E2; [|discriminate]. injection R2 as ->.
  assert (Y12 : y2 = y1 /\ exists j k u x, f_cur f1 = Some (j, k) /\ nth_error (y_subs y1) j = Some u /\ nth_error (u_got u) k = Some x
    /\ f_printed f2 = f_printed f1 ++ [x]).
  { cbn in E2. destruct (f_cur f1) as [[j k]|]; [|discriminate]. destruct (nth_error (y_subs y1) j) as [u|] eqn:Hu; [|discriminate].
    destruct (nth_error (u_got u) k) as [x|] eqn:Hx; [|discriminate]. injection E2 as <- <-. split; auto. exists j, k, u, x. auto. }
  destruct Y12 as [-> (j & k & u & x & Hc & Hu & Hx & EP2)].
  pose proof R1 as R1'. cbn [frun] in R1'. destruct (fstep m (y, f) (FConnect i)) as [[z fz]|] eqn:E; [|discriminate].
  cbn [fstep] in E. destruct (f_cur f) as [|]; [discriminate|]. destruct (ystep m y (YStartFrom i (f_pos f))) as [z'|] eqn:Ez; [|discriminate].
  injection E as -> <-. pose proof (quiet_client m la _ _ R1' HA) as QC. cbn [snd] in QC. subst f1. cbn [f_cur f_printed] in *.
  injection Hc as <- <-.
  pose proof (following_run m subs [q] (single_asks q) (single_nodup q) _ y1 _ RA A LM) as W.
  pose proof (frun_server _ _ _ _ R) as RS0. cbn [fst start] in RS0.
  pose proof (frun_server _ _ _ _ RA) as RS. cbn [fst] in RS.
  assert (SP : server m (start subs) (ls ++ FConnect i :: la) = server m (start subs) ls ++ YStartFrom i (f_pos f) :: server m (z, mk_follower (f_pos f) (f_printed f) (Some (i, 0%nat))) la).
  { rewrite (server_app _ _ _ _ _ R). cbn [server server_step snd]. f_equal. cbn [app fstep].
    destruct (f_cur f) eqn:Ec; cbn [fstep] in *. 1: { exfalso. clear - R1 Ec. cbn [frun fstep] in R1. rewrite Ec in R1. discriminate. }
    rewrite Ez. reflexivity. }
  destruct (A i ltac:(apply in_app_iff; right; now left)) as [cap Hs].
  assert (PG : f_pos f = r_gsn r).
  { assert (L0 : l_last (y_log y) < max64).
    { pose proof (frun_server _ _ _ _ R1) as RR. cbn [fst] in RR. apply saved_order in RR as (_ & _ & RR). lia. }
    pose proof (following_run m subs [q] (single_asks q) (single_nodup q) _ y _ R A0 L0) as W0.
    rewrite (w_last _ _ _ _ _ _ W0), EP, map_app. cbn [map]. now rewrite last_last. }
  pose proof (w_le _ _ _ _ _ _ W) as WL. cbn [f_pos] in WL.
  rewrite SP in RS.
  assert (GF : forall g', In (YStartFrom i g') (server m (start subs) ls ++ YStartFrom i (f_pos f) :: server m (z, mk_follower (f_pos f) (f_printed f) (Some (i, 0%nat))) la) -> g' = f_pos f).
  { intros g' Hg. eapply (only_one_start m (sys_init subs)); eauto. cbn. rewrite nth_error_map, Hs. reflexivity. reflexivity. }
  destruct (run_ordered m subs _ y1 i [q] cap u RS Hs (single_asks q) (single_nodup q) LM) as [GI GG]; auto.
  { intros g' Hg. rewrite (GF g' Hg). lia. }
  assert (Gx : f_pos f <= r_gsn x).
  { apply (GG (f_pos f)); [apply in_app_iff; right; now left|]. eapply nth_error_In; eauto. }
  assert (Hg : In r (u_got u)).
  { apply (run_gapless m subs _ _ i q cap (f_pos f) y y1 u RS0 RS) with (r' := x); auto.
    - rewrite <- SP. destruct O as [O|O]; auto. right. now apply server_in_turn.
    - intros n Hn. assert (Hn' : In (YFetch i (Some n)) (server m (start subs) (ls ++ FConnect i :: la))) by (rewrite SP; apply in_app_iff; right; now right).
      apply in_server in Hn' as [Hn'|(i' & g' & X & _)]; [|discriminate].
      apply (RF i n); auto. apply in_app_iff. right. now left.
    - lia.
    - eapply nth_error_In; eauto.
    - assert (Ha : asked [q] r).
      { apply (w_asked _ _ _ _ _ _ W). cbn [f_printed]. rewrite EP. apply in_app_iff. right. now left. }
      destruct Ha as [[Ha|[]]|[Ha|[]]]; rewrite Ha; cbn; auto. apply String.eqb_refl.
    - lia. }
  destruct (In_nth_error _ _ Hg) as [n Hn].
  assert (n <= 0)%nat by (apply (incr_nth _ n 0 _ _ GI Hn Hx); lia).
  assert (n = 0%nat) by lia. subst n. rewrite EP2. congruence.
Qed.
