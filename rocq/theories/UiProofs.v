(** Proofs about the live page of all aggregate types. *)
From Coq Require Import PeanoNat Permutation.
From Verif Require Import Base LogSpec Core CoreSpec CoreProofs Json JsonProofs JsonText Subscription SubscriptionProofs Stats StatsSpec StatsProofs Ui UiSpec.
Open Scope N_scope.
Open Scope list_scope.

(** * Moments *)

Lemma in_fst {A B} (a : A) (b : B) l : In (a, b) l -> In a (map fst l).
Proof. intros H. apply in_map_iff. exists (a, b). auto. Qed.

Lemma firstn_snoc {A} k (l : list A) x : (k <= length l)%nat -> firstn k (l ++ [x]) = firstn k l.
Proof. intros H. rewrite firstn_app. replace (k - length l)%nat with 0%nat by lia. cbn. apply app_nil_r. Qed.

Lemma firstn_incl {A} a b (l : list A) x : (a <= b)%nat -> In x (firstn a l) -> In x (firstn b l).
Proof.
  intros H Hx. assert (E : firstn a l = firstn a (firstn b l)) by (rewrite firstn_firstn; f_equal; lia).
  rewrite E in Hx. eapply In_firstn; eauto.
Qed.

Lemma firstn_count (f : record -> bool) a b l : (a <= b)%nat ->
  (length (filter f (firstn a l)) <= length (filter f (firstn b l)))%nat.
Proof.
  intros H. assert (E : firstn b l = firstn a l ++ skipn a (firstn b l)).
  { rewrite <- (firstn_skipn a (firstn b l)) at 1. f_equal. rewrite firstn_firstn. f_equal. lia. }
  rewrite E, filter_app, app_length. lia.
Qed.

Lemma count_le t a b l : (a <= b)%nat -> how_many (of_type t (firstn a l)) <= how_many (of_type t (firstn b l)).
Proof. intros H. unfold how_many, of_type. pose proof (firstn_count (fun r => String.eqb (r_atype r) t) a b l H). lia. Qed.

Lemma total_le a b (l : list record) : (a <= b)%nat -> how_many (firstn a l) <= how_many (firstn b l).
Proof. intros H. unfold how_many. rewrite !firstn_length. lia. Qed.

Definition between (rs : list record) (lo hi : nat) (o : overview) : Prop :=
  NoDup (map fst (o_types o)) /\ true_between rs lo hi o.

Lemma between_more rs r lo hi o : (hi <= length rs)%nat -> between rs lo hi o -> between (rs ++ [r]) lo hi o.
Proof.
  intros H (N & (k & K & T) & C & k' & K' & E). split; auto. split; [|split].
  - exists k. rewrite firstn_snoc by lia. auto.
  - intros t n Hn. destruct (C t n Hn) as (k2 & K2 & E2). exists k2. rewrite firstn_snoc by lia. auto.
  - exists k'. rewrite firstn_snoc by lia. auto.
Qed.

Lemma between_wider rs lo hi hi' o : (hi <= hi')%nat -> between rs lo hi o -> between rs lo hi' o.
Proof.
  intros H (N & (k & K & T) & C & k' & K' & E). split; auto. split; [|split].
  - exists k. split; [lia|auto].
  - intros t n Hn. destruct (C t n Hn) as (k2 & K2 & E2). exists k2. split; [lia|auto].
  - exists k'. split; [lia|auto].
Qed.

Lemma between_at rs z o : (z = length rs)%nat -> between rs z z o -> tells_of o rs.
Proof.
  intros -> (N & (k & K & T) & C & k' & K' & E). assert (k = length rs) as -> by lia. assert (k' = length rs) as -> by lia.
  rewrite firstn_all in *. split; auto. split; auto. intros t n. split.
  - intros Hn. split; [apply T; eapply in_fst; eauto|].
    destruct (C t n Hn) as (k2 & K2 & ->). assert (k2 = length rs) as -> by lia. now rewrite firstn_all.
  - intros [Ht ->]. apply T in Ht. apply in_map_iff in Ht as ([t' n] & <- & Hn). cbn in *.
    destruct (C t' n Hn) as (k2 & K2 & ->). assert (k2 = length rs) as -> by lia. now rewrite firstn_all in Hn.
Qed.

Lemma between_le rs lo hi lo' hi' o o' : between rs lo hi o -> between rs lo' hi' o' -> (hi <= lo')%nat -> at_least o o'.
Proof.
  intros (N & (k & K & T) & C & k2 & K2 & E) (N' & (k' & K' & T') & C' & k2' & K2' & E') L. split.
  - intros t n Hn. destruct (C t n Hn) as (a & A & ->).
    assert (Ht : In t (map fst (o_types o))) by (eapply in_fst; eauto).
    apply T in Ht as (r & Hr & Er).
    assert (Ht' : In t (map fst (o_types o'))). { apply T'. exists r. split; auto. eapply firstn_incl; [|exact Hr]. lia. }
    apply in_map_iff in Ht' as ([t' n'] & <- & Hn'). cbn in *. exists n'. split; auto.
    destruct (C' t' n' Hn') as (a' & A' & ->). apply count_le. lia.
  - rewrite E, E'. apply total_le. lia.
Qed.

(** Messages of which each was put together after the one before it. *)
Inductive chain (rs : list record) : nat -> list overview -> Prop :=
| ch_nil b : chain rs b []
| ch_snoc b' lo hi b ms o : chain rs b' ms -> (b' <= lo)%nat -> (lo <= hi <= b)%nat -> between rs lo hi o ->
    chain rs b (ms ++ [o]).

Lemma chain_later rs b b' ms : chain rs b ms -> (b <= b')%nat -> chain rs b' ms.
Proof. intros H L. destruct H; [constructor|]. econstructor; eauto. lia. Qed.

Lemma chain_more rs r b ms : chain rs b ms -> (b <= length rs)%nat -> chain (rs ++ [r]) b ms.
Proof.
  intros H. induction H; intros L; [constructor|].
  econstructor; [apply IHchain; lia|eassumption|eassumption|apply between_more; auto; lia].
Qed.

Lemma chain_in rs b ms o : chain rs b ms -> In o ms -> exists lo hi, (lo <= hi <= b)%nat /\ between rs lo hi o.
Proof.
  intros H. induction H; [intros []|]. intros Ho. apply in_app_iff in Ho as [Ho|[<-|[]]].
  - destruct (IHchain Ho) as (l & h & A & B). exists l, h. split; auto. lia.
  - exists lo, hi. auto.
Qed.

Lemma chain_order rs b ms : chain rs b ms -> forall i j o o', (i < j)%nat -> nth_error ms i = Some o -> nth_error ms j = Some o' ->
  at_least o o'.
Proof.
  intros H. induction H; intros i j x x' L Hx Hx'; [destruct i; discriminate|].
  destruct (Nat.eq_dec j (length ms)) as [->|N].
  - rewrite nth_error_app2, Nat.sub_diag in Hx' by lia. injection Hx' as <-.
    rewrite nth_error_app1 in Hx by lia. destruct (chain_in _ _ _ _ H (nth_error_In _ _ Hx)) as (l & h & A & B).
    eapply between_le; eauto. lia.
  - assert (j < length (ms ++ [o]))%nat by (apply nth_error_Some; congruence). rewrite app_length in *. cbn in *.
    rewrite nth_error_app1 in Hx by lia. rewrite nth_error_app1 in Hx' by lia. exact (IHchain _ _ _ _ L Hx Hx').
Qed.

(** * The handler *)

Definition gathering (rs : list record) (lo : nat) (left : list string) (info : list (string * N)) : Prop :=
  NoDup (map fst info ++ left)
  /\ (exists k, (lo <= k <= length rs)%nat
       /\ forall t, In t (map fst info ++ left) <-> exists r, In r (firstn k rs) /\ r_atype r = t)
  /\ forall t n, In (t, n) info -> exists k, (lo <= k <= length rs)%nat /\ n = how_many (of_type t (firstn k rs)).

Definition at_place (rs : list record) (lo : nat) (p : page) : Prop :=
  match p_place p with
  | WSleep | WLook =>
      (p_sent p = [] /\ lo = 0%nat)
      \/ exists ms o, p_sent p = ms ++ [o] /\ chain rs lo ms /\ between rs lo (length rs) o
  | WTypes => chain rs lo (p_sent p)
  | WCount todo info => chain rs lo (p_sent p) /\ gathering rs lo todo info
  | WTotal info => chain rs lo (p_sent p) /\ gathering rs lo [] info
  | WWrite o => chain rs lo (p_sent p) /\ between rs lo (length rs) o
  | WEnd => chain rs (length rs) (p_sent p)
  end.

Record watched (d : stats) (p : page) (rs : list record) (lo : nat) : Prop := {
  w_tells : tells d rs;
  w_lo : (lo <= length rs)%nat;
  w_seen : p_seen p = last (map r_gsn (firstn lo rs)) 0;
  w_place : at_place rs lo p
}.

Lemma gathering_more rs r lo todo info : gathering rs lo todo info -> gathering (rs ++ [r]) lo todo info.
Proof.
  intros (N & (k & K & T) & C). split; auto. rewrite app_length. cbn. split.
  - exists k. rewrite firstn_snoc by lia. split; [lia|auto].
  - intros t n Hn. destruct (C t n Hn) as (k' & K' & E). exists k'. rewrite firstn_snoc by lia. split; [lia|auto].
Qed.

Lemma watched_accept d p rs lo r d' : watched d p rs lo -> accept d r = Some d' -> watched d' p (rs ++ [r]) lo.
Proof.
  intros [T L S P] A. destruct (tells_accept _ _ r T) as (d2 & A2 & T2). rewrite A in A2. injection A2 as <-.
  constructor; auto.
  - rewrite app_length. lia.
  - now rewrite firstn_snoc by lia.
  - unfold at_place in *. rewrite app_length. cbn [length]. destruct (p_place p).
    + destruct P as [P|(ms & o & E & C & B)]; [now left|right]. exists ms, o. split; auto. split; [now apply chain_more|].
      eapply between_wider; [|apply between_more; [|exact B]]; lia.
    + destruct P as [P|(ms & o & E & C & B)]; [now left|right]. exists ms, o. split; auto. split; [now apply chain_more|].
      eapply between_wider; [|apply between_more; [|exact B]]; lia.
    + now apply chain_more.
    + destruct P as [P G]. split; [now apply chain_more|now apply gathering_more].
    + destruct P as [P G]. split; [now apply chain_more|now apply gathering_more].
    + destruct P as [P B]. split; [now apply chain_more|]. eapply between_wider; [|apply between_more; [|exact B]]; lia.
    + eapply chain_later; [apply chain_more; eauto|lia].
Qed.

Lemma tells_types d rs : tells d rs -> NoDup (sorted_types d) /\ forall t, In t (sorted_types d) <-> exists r, In r rs /\ r_atype r = t.
Proof.
  intros [(m & E & S & C & T) La To]. unfold sorted_types. rewrite E. split; auto.
  clear -S. induction m as [|[k n] m IH]; cbn; constructor.
  - intros H. apply in_map_iff in H as ([k' n'] & E & H). cbn in E. subst k'.
    pose proof (sorted_below _ _ _ S _ _ H) as X. rewrite (compare_refl k) in X. discriminate.
  - apply IH. eapply sorted_tail; eauto.
Qed.

Lemma tells_count d rs t : tells d rs -> events_of_type t d = how_many (of_type t rs).
Proof. intros [(m & E & S & C & T) La To]. unfold events_of_type. rewrite E. apply C. Qed.

Lemma watched_page d p rs lo ok : watched d p rs lo -> exists lo', watched d (page_step d ok p) rs lo'.
Proof.
  intros [T L S P]. destruct p as [seen pl sent]. unfold at_place in P. cbn [p_seen p_place p_sent] in *.
  unfold page_step. cbn [p_seen p_place p_sent]. destruct pl as [| | |left info|info|o|].
  - exists lo. destruct (_ <=? _); constructor; auto.
  - exists (length rs). constructor; cbn [p_seen]; auto.
    + rewrite firstn_all. apply (te_latest _ _ T).
    + cbn. destruct P as [[-> _]|(ms & o & -> & C & B)]; [constructor|]. apply ch_snoc with (b' := lo) (lo := lo) (hi := length rs); auto; lia.
  - exists lo. constructor; auto. cbn. split; auto. destruct (tells_types _ _ T) as [N I].
    split; [exact N|]. split; [|intros t n []]. exists (length rs). rewrite firstn_all. auto.
  - destruct left as [|t left].
    + exists lo. constructor; auto; exact P.
    + exists lo. constructor; auto. cbn. destruct P as [C (N & K & Q)]. split; auto.
      assert (E : map fst (info ++ [(t, events_of_type t d)]) ++ left = map fst info ++ t :: left).
      { rewrite map_app, <- app_assoc. reflexivity. }
      split; [now rewrite E|]. split; [now rewrite E|].
      intros t' n Hn. apply in_app_iff in Hn as [Hn|[Hn|[]]]; [auto|]. injection Hn as <- <-.
      exists (length rs). rewrite firstn_all. split; [lia|]. now apply tells_count.
  - exists lo. constructor; auto. cbn. destruct P as [C (N & K & Q)]. split; auto. rewrite app_nil_r in *.
    split; [exact N|]. split; [exact K|]. split; [exact Q|]. cbn. exists (length rs). split; [lia|].
    rewrite firstn_all. apply (te_total _ _ T).
  - exists lo. destruct P as [C B]. destruct ok; constructor; auto; cbn.
    + right. eauto.
    + eapply chain_later; eauto.
  - exists lo. constructor; auto.
Qed.

Lemma accepted_app a b : accepted (a ++ b) = accepted a ++ accepted b.
Proof. apply flat_map_app. Qed.

Lemma watch_snoc ls l : watch (ls ++ [l]) = watch_step (watch ls) l.
Proof. unfold watch. now rewrite fold_left_app. Qed.

Lemma watch_ok ls d p : watch ls = Some (d, p) -> exists lo, watched d p (accepted ls) lo.
Proof.
  revert d p. induction ls as [|l ls IH] using rev_ind; intros d p H.
  - injection H as <- <-. exists 0%nat. constructor; cbn; auto. apply tells_new.
  - rewrite watch_snoc in H. unfold watch_step in H. destruct (watch ls) as [[d1 p1]|]; [|discriminate].
    destruct (IH _ _ eq_refl) as (lo & W). rewrite accepted_app. destruct l as [r|ok]; cbn [accepted flat_map app].
    + destruct (accept d1 r) as [d2|] eqn:A; [|discriminate]. injection H as <- <-. exists lo. eapply watched_accept; eauto.
    + injection H as <- <-. rewrite app_nil_r. eapply watched_page; eauto.
Qed.

Lemma watch_runs ls : exists d p, watch ls = Some (d, p).
Proof.
  induction ls as [|l ls IH] using rev_ind; [eexists; eexists; reflexivity|].
  destruct IH as (d & p & E). rewrite watch_snoc, E. destruct l as [r|ok]; cbn; [|eauto].
  destruct (watch_ok _ _ _ E) as (lo & [T _ _ _]). destruct (tells_accept _ _ r T) as (d2 & -> & _). eauto.
Qed.

(** Numbers increase and start above zero. *)
Definition numbered (rs : list record) : Prop := gsn_increasing rs /\ forall r, In r rs -> 0 < r_gsn r.

Lemma last_firstn_lt rs lo : numbered rs -> (lo < length rs)%nat -> last (map r_gsn (firstn lo rs)) 0 < last (map r_gsn rs) 0.
Proof.
  intros [I P] L. destruct (exists_last (l := rs)) as (l & x & E); [intros ->; cbn in L; lia|].
  assert (F : last (map r_gsn rs) 0 = r_gsn x). { rewrite E, map_app. cbn [map]. now rewrite last_last. }
  rewrite F. assert (Hx : 0 < r_gsn x) by (apply P; rewrite E; apply in_app_iff; right; now left).
  destruct (list_eq_dec N.eq_dec (map r_gsn (firstn lo rs)) []) as [Z|Z]; [rewrite Z; cbn; lia|].
  destruct (exists_last (l := firstn lo rs)) as (f & a & Ef); [intros W; now rewrite W in Z|].
  rewrite Ef, map_app. cbn [map]. rewrite last_last. rewrite E in I. apply incr_app_inv in I as (_ & _ & H). apply H; [|now left].
  rewrite E in Ef. rewrite E, app_length in L. cbn in L. rewrite firstn_snoc in Ef by lia.
  eapply In_firstn. rewrite Ef. apply in_app_iff. right. now left.
Qed.

Lemma rest_ok ls d p : watch ls = Some (d, p) -> numbered (accepted ls) ->
  p_place p = WSleep -> latest_number d <= p_seen p ->
  (accepted ls = [] /\ p_sent p = [])
  \/ exists ms o, p_sent p = ms ++ [o] /\ tells_of o (accepted ls).
Proof.
  intros H NU P R. destruct (watch_ok _ _ _ H) as (lo & [T L S W]).
  unfold latest_number in R. rewrite (te_latest _ _ T), S in R.
  destruct (Nat.eq_dec lo (length (accepted ls))) as [->|N].
  - unfold at_place in W. rewrite P in W. destruct W as [[W1 W2]|(ms & o & E & C & B)].
    + left. split; auto. now apply length_zero_iff_nil.
    + right. exists ms, o. split; auto. eapply between_at; eauto.
  - pose proof (last_firstn_lt _ lo NU). lia.
Qed.

(** * It comes to rest *)

Lemma nodup_right {A} (a b : list A) : NoDup (a ++ b) -> NoDup b.
Proof. induction a; cbn; auto. intros H. inversion H; auto. Qed.

Definition again (d : stats) (p : page) : nat := if latest_number d <=? p_seen p then 0 else length (sorted_types d) + 6.
Definition cost (d : stats) (p : page) : nat :=
  match p_place p with
  | WSleep => again d p
  | WLook => length (sorted_types d) + 5
  | WTypes => length (sorted_types d) + 4 + again d p
  | WCount ts _ => length ts + 3 + again d p
  | WTotal _ => 2 + again d p
  | WWrite _ => 1 + again d p
  | WEnd => 0
  end.

Lemma cost_step d p : p_place p <> WEnd -> (cost d (page_step d true p) = cost d p - 1)%nat /\ p_place (page_step d true p) <> WEnd.
Proof.
  intros N. destruct p as [seen pl sent]. unfold cost, page_step, again. cbn [p_seen p_place p_sent] in *.
  destruct pl as [| | |left info|info|o|]; cbn [p_seen p_place p_sent]; try (split; [lia|discriminate]).
  - destruct (latest_number d <=? seen) eqn:E; cbn [p_seen p_place p_sent]; rewrite ?E; split; try lia; discriminate.
  - rewrite N.leb_refl. split; [lia|discriminate].
  - destruct left; cbn [p_seen p_place p_sent length]; split; try lia; discriminate.
  - contradiction.
Qed.

Lemma cost_zero d p : p_place p <> WEnd -> cost d p = 0%nat -> p_place p = WSleep /\ latest_number d <= p_seen p.
Proof.
  intros N. unfold cost, again. destruct (p_place p); try lia; try contradiction.
  destruct (N.leb_spec (latest_number d) (p_seen p)); [auto|lia].
Qed.

Lemma cost_bound ls d p : watch ls = Some (d, p) -> (cost d p <= 2 * length (sorted_types d) + 10)%nat.
Proof.
  intros H. destruct (watch_ok _ _ _ H) as (lo & [T L S W]). unfold cost, at_place, again in *.
  destruct (p_place p) as [| | |todo info|info|o|]; destruct (latest_number d <=? p_seen p); try lia.
  all: assert (length todo <= length (sorted_types d))%nat; [|lia].
  all: destruct W as [_ (N & (k & K & Q) & _)]; apply NoDup_incl_length; [exact (nodup_right _ _ N)|].
  all: intros t Ht; apply (tells_types _ _ T); destruct (proj1 (Q t)) as (r & Hr & E); [apply in_app_iff; now right|];
    exists r; split; auto; eapply In_firstn; eauto.
Qed.

Fixpoint pages (d : stats) (n : nat) (p : page) : page :=
  match n with O => p | S n' => pages d n' (page_step d true p) end.

Lemma watch_pages n : forall ls d p, watch ls = Some (d, p) -> watch (ls ++ repeat (MPage true) n) = Some (d, pages d n p).
Proof.
  induction n as [|n IH]; cbn [repeat pages]; intros ls d p H; [now rewrite app_nil_r|].
  assert (E : ls ++ MPage true :: repeat (MPage true) n = (ls ++ [MPage true]) ++ repeat (MPage true) n) by (now rewrite <- app_assoc).
  rewrite E. apply IH. rewrite watch_snoc, H. reflexivity.
Qed.

Lemma pages_cost n : forall d p, p_place p <> WEnd -> (cost d (pages d n p) = cost d p - n)%nat /\ p_place (pages d n p) <> WEnd.
Proof.
  induction n as [|n IH]; cbn [pages]; intros d p H; [split; [lia|auto]|].
  destruct (cost_step d p H) as [C N]. destruct (IH d _ N) as [C' N']. split; auto. lia.
Qed.

Lemma accepted_pages n : accepted (repeat (MPage true) n) = [].
Proof. induction n; cbn; auto. Qed.

Lemma sent_between ls d p : watch ls = Some (d, p) -> forall o, In o (p_sent p) ->
  exists lo hi, (lo <= hi <= length (accepted ls))%nat /\ between (accepted ls) lo hi o.
Proof.
  intros H o Ho. destruct (watch_ok _ _ _ H) as (lo & [T B S W]).
  assert (C : chain (accepted ls) (length (accepted ls)) (p_sent p)).
  { unfold at_place in W. destruct (p_place p); try (destruct W as [W _]); try (eapply chain_later; eauto; fail).
    - destruct W as [[-> _]|(ms & x & -> & C & Bt)]; [constructor|].
      apply ch_snoc with (b' := lo) (lo := lo) (hi := length (accepted ls)); auto; lia.
    - destruct W as [[-> _]|(ms & x & -> & C & Bt)]; [constructor|].
      apply ch_snoc with (b' := lo) (lo := lo) (hi := length (accepted ls)); auto; lia. }
  eapply chain_in; eauto.
Qed.

(** * Adding up *)

Lemma count_without t rs : (length rs = length (of_type t rs) + length (filter (fun r => negb (String.eqb (r_atype r) t)) rs))%nat.
Proof. unfold of_type. induction rs as [|r rs IH]; cbn; auto. destruct (String.eqb (r_atype r) t); cbn; lia. Qed.

Lemma of_type_without t t' rs : t <> t' -> of_type t (filter (fun r => negb (String.eqb (r_atype r) t')) rs) = of_type t rs.
Proof.
  intros N. unfold of_type. induction rs as [|r rs IH]; cbn; auto. destruct (String.eqb_spec (r_atype r) t') as [->|]; cbn.
  - destruct (String.eqb_spec t' t); [congruence|auto]. - now rewrite IH.
Qed.

Lemma sum_types l : forall rs, NoDup (map fst l) ->
  (forall t n, In (t, n) l <-> (exists r, In r rs /\ r_atype r = t) /\ n = how_many (of_type t rs)) ->
  how_many rs = fold_right N.add 0 (map snd l).
Proof.
  induction l as [|[t n] l IH]; intros rs ND H; cbn.
  - destruct rs as [|r rs]; auto. exfalso. apply (H (r_atype r) (how_many (of_type (r_atype r) (r :: rs)))).
    split; auto. exists r. split; [now left|auto].
  - cbn in ND. inversion ND as [|? ? N1 N2]; subst.
    assert (E : n = how_many (of_type t rs)) by (apply H; now left).
    pose proof (count_without t rs) as C. unfold how_many in *.
    rewrite <- (IH (filter (fun r => negb (String.eqb (r_atype r) t)) rs)); [lia|auto|].
    intros t' n'. destruct (String.eqb_spec t' t) as [->|NE].
    + split.
      * intros Hn. exfalso. apply N1. eapply in_fst; eauto.
      * intros [(r & Hr & Er) _]. apply filter_In in Hr as [_ Hr]. rewrite Er, String.eqb_refl in Hr. discriminate.
    + rewrite of_type_without by auto. specialize (H t' n'). cbn in H. split.
      * intros Hn. destruct H as [H _]. destruct (H (or_intror Hn)) as [(r & Hr & Er) En]. split; auto.
        exists r. split; auto. apply filter_In. split; auto. rewrite Er. apply negb_true_iff. now apply String.eqb_neq.
      * intros [(r & Hr & Er) En]. destruct H as [_ H]. apply filter_In in Hr as [Hr _].
        destruct H as [H|H]; [split; eauto|congruence|auto].
Qed.

Lemma tells_adds_up o rs : tells_of o rs -> adds_up o.
Proof. intros (N & C & T). unfold adds_up. rewrite T. now apply sum_types. Qed.
