(** Global sequence numbers of the in-memory store in arbitrary histories: no
    restriction on names, batches, cancellations or encoding failures. *)
From Verif Require Import Base Core CoreSpec CoreProofs LogSpec LogProofs StoreSpec InMemory InMemoryProofs.
From Coq Require Import Arith.

(** * Everything a merge delivers comes from one of its sources *)

Definition iter_all (P : record -> Prop) (it : iter) : Prop :=
  (forall r, In (RRec r) (it_chan it) -> P r) /\ (forall r, it_rec it = Some r -> P r).
Definition pipe_all (P : record -> Prop) (p : pipe) : Prop := iter_all P (fst p) /\ P (snd p).

Lemma next_all P it : iter_all P it -> iter_all P (fst (next it)).
Proof.
  intros [H1 H2]. unfold next. destruct (it_err it); [split; auto|].
  destruct (it_chan it) as [|[r|e] rest] eqn:E; split; cbn; try discriminate; try tauto.
  - intros r' H. apply H1. now right.
  - intros r' [= <-]. apply H1. now left.
  - intros r' H. apply H1. now right.
Qed.

Lemma read_next_all P it p : iter_all P it -> read_next it = Some p -> pipe_all P p.
Proof.
  intros H E. pose proof (next_all P it H) as Hn. unfold read_next in E.
  destruct (it_rec (fst (next it))) as [r|] eqn:Er; [|discriminate]. injection E as <-.
  split; auto. cbn. now apply Hn.
Qed.

Lemma Forall_set_nth {A} (P : A -> Prop) l : forall i x, Forall P l -> P x -> Forall P (set_nth i x l).
Proof.
  induction l as [|a l IH]; intros [|i] x H Hx; cbn; auto; inversion H; subst; constructor; auto.
Qed.

Lemma Forall_removelast {A} (P : A -> Prop) l : Forall P l -> Forall P (removelast l).
Proof.
  induction l as [|a l IH]; intros H; cbn; auto. destruct l; auto. inversion H; subst. constructor; auto.
Qed.

Lemma Forall_remove_pipe P i ps : Forall P ps -> Forall P (remove_pipe i ps).
Proof.
  intros H. unfold remove_pipe. destruct ps as [|p ps]; auto. apply Forall_removelast, Forall_set_nth; auto.
  rewrite Forall_forall in H. apply H. destruct (exists_last (l := p :: ps)) as (l & x & E); [discriminate|].
  rewrite E, last_last. apply in_or_app. cbn. auto.
Qed.

Lemma merge_step_all P ps m ps' sent m' : Forall (pipe_all P) ps -> merge_step ps m = Some (ps', sent, m') ->
  Forall (pipe_all P) ps' /\ (forall r, sent = Some r -> P r).
Proof.
  intros H. unfold merge_step. destruct m as [|i pos].
  - destruct (nth_error ps (smallest ps)) as [[it r]|] eqn:En; [|discriminate].
    assert (Hp : pipe_all P (it, r)).
    { rewrite Forall_forall in H. apply H. eapply nth_error_In; eauto. }
    destruct (read_next it) as [p|] eqn:Er; intros [= <- <- <-].
    + split; [apply Forall_set_nth; auto; eapply read_next_all; eauto; apply Hp|]. intros ? [= <-]. apply Hp.
    + split; [now apply Forall_remove_pipe|]. intros ? [= <-]. apply Hp.
  - destruct (nth_error ps i) as [[it r]|] eqn:En; [|discriminate].
    assert (Hp : pipe_all P (it, r)).
    { rewrite Forall_forall in H. apply H. eapply nth_error_In; eauto. }
    destruct (r_gsn r =? pos + 1).
    + destruct (read_next it) as [p|] eqn:Er; intros [= <- <- <-].
      * split; [apply Forall_set_nth; auto; eapply read_next_all; eauto; apply Hp|]. intros ? [= <-]. apply Hp.
      * split; [now apply Forall_remove_pipe|]. intros ? [= <-]. apply Hp.
    + intros [= <- <- <-]. split; auto. discriminate.
Qed.

Lemma merge_loop_all P fuel : forall ps m rs, Forall (pipe_all P) ps -> merge_loop fuel ps m = Some rs -> Forall P rs.
Proof.
  induction fuel as [|f IH]; intros ps m rs H; cbn; [discriminate|].
  destruct (merge_step ps m) as [[[ps1 sent] m1]|] eqn:E; [|intros [= <-]; constructor].
  destruct (merge_step_all P _ _ _ _ _ H E) as [H1 H2].
  destruct (merge_loop f ps1 m1) as [rs1|] eqn:E1; [|discriminate]. intros [= <-].
  specialize (IH _ _ _ H1 E1). destruct sent; auto.
Qed.

Lemma prime_all P its : Forall (iter_all P) its -> Forall (pipe_all P) (prime its).
Proof.
  induction 1 as [|it its H _ IH]; cbn; auto.
  destruct (read_next it) eqn:E; auto. constructor; auto. eapply read_next_all; eauto.
Qed.

Lemma merge_results_all P its l : Forall (iter_all P) its -> merge_results its = Some l -> Forall P (recs_of l).
Proof.
  intros H E. unfold merge_results in E. destruct (merge_loop _ _ _) as [rs|] eqn:El; [|discriminate].
  injection E as <-. apply (merge_loop_all P) in El; [|now apply prime_all].
  clear - El. induction El; cbn; auto.
Qed.

Section WithCodec.
Variable c : codec.
Hypothesis Hc : codec_ok c.

Record J (m : mem) : Prop := {
  J_sorted : StronglySorted N.lt (m_records m);
  J_last : forall g, In g (m_records m) -> g <= m_last m;
  J_data : forall g d, m_data m g = Some d -> g <= m_last m /\ exists r, deser c d = Some r /\ r_gsn r = g;
  J_present : forall g, In g (m_records m) -> m_data m g <> None
}.

Lemma J_init : J mem_init.
Proof. constructor; cbn; try tauto; try discriminate. constructor. Qed.

Lemma sorted_nodup l : StronglySorted N.lt l -> NoDup l.
Proof.
  induction 1 as [|a l _ IH H]; constructor; auto. rewrite Forall_forall in H.
  intros Hin. apply H in Hin. lia.
Qed.

Lemma sorted_snoc l x : StronglySorted N.lt l -> (forall y, In y l -> y < x) -> StronglySorted N.lt (l ++ [x]).
Proof.
  induction 1 as [|a l Hs IH H]; intros Hx; cbn.
  - repeat constructor.
  - constructor; [apply IH; intros; apply Hx; now right|]. apply Forall_app. split; auto.
    constructor; [apply Hx; now left|constructor].
Qed.

Lemma sorted_app_l (l1 l2 : list N) : StronglySorted N.lt (l1 ++ l2) -> StronglySorted N.lt l1.
Proof.
  induction l1 as [|a l1 IH]; cbn; intros H; [constructor|]. inversion H as [|? ? H1 H2]; subst.
  constructor; auto. apply Forall_app in H2. tauto.
Qed.

Lemma sorted_filter f l : StronglySorted N.lt l -> StronglySorted N.lt (filter f l).
Proof.
  induction 1 as [|a l Hs IH H]; cbn; [constructor|]. destruct (f a); auto. constructor; auto.
  rewrite Forall_forall in *. intros x Hx. apply filter_In in Hx. apply H. tauto.
Qed.

(** One event stored. *)
Lemma J_save_event m s ex e : J m ->
  match mem_save_event c m s ex e with
  | (m1, inl er) => m_records m1 = m_records m /\ m_data m1 = m_data m /\ m_last m <= m_last m1 <= m_last m + 1
  | (m1, inr (d, r)) => J m1 /\ m_records m1 = m_records m ++ [r_gsn r] /\ r_gsn r = m_last m + 1
      /\ m_last m1 = m_last m + 1 /\ deser c d = Some r
      /\ (forall g x, m_data m1 g = Some x -> g = r_gsn r \/ m_data m g = Some x)
  end.
Proof.
  intros HJ. unfold mem_save_event.
  destruct (match ex with Some _ => _ | None => _ end); [repeat split; lia|].
  destruct (ser c _) as [d|] eqn:E; [|cbn; repeat split; lia].
  cbn [m_records m_data m_last r_gsn]. apply Hc in E. split; [|repeat split; auto].
  - constructor; cbn [m_records m_data m_last].
    + apply sorted_snoc; [apply HJ|]. intros y Hy. apply (J_last _ HJ) in Hy. lia.
    + intros g Hg. apply in_app_or in Hg. destruct Hg as [Hg|[<-|[]]]; [apply (J_last _ HJ) in Hg|]; lia.
    + intros g d' Hg. unfold nset in Hg. destruct (N.eqb_spec g (m_last m + 1)) as [->|Hne].
      * injection Hg as <-. split; [lia|]. eexists; split; [exact E|reflexivity].
      * destruct (J_data _ HJ g d' Hg) as [H1 H2]. split; [lia|exact H2].
    + intros g Hg. unfold nset. destruct (N.eqb_spec g (m_last m + 1)); [discriminate|].
      apply in_app_or in Hg. destruct Hg as [Hg|[<-|[]]]; [now apply (J_present _ HJ)|congruence].
  - intros g x Hg. unfold nset in Hg. destruct (N.eqb_spec g (m_last m + 1)); auto.
Qed.

Lemma rtrim_spec (a b l : list N) : rtrim (a ++ b) (length b) = Some l -> l = a.
Proof. rewrite rtrim_app. now intros [= <-]. Qed.

Lemma fold_nset_in created : forall (d : N -> option string) g x,
  fold_left (fun d g => nset g None d) created d g = Some x -> ~ In g created /\ d g = Some x.
Proof.
  induction created as [|y l IH]; cbn; intros d g x H; [tauto|].
  apply IH in H. destruct H as [H1 H2]. unfold nset in H2. destruct (N.eqb_spec g y); [discriminate|].
  split; auto. intros [->|]; auto.
Qed.

Lemma J_rollback m base rs created t i m' :
  m_records m = rs ++ created -> m_last m >= base + N.of_nat (length created) ->
  StronglySorted N.lt rs -> (forall g, In g rs -> g <= base /\ m_data m g <> None) ->
  (forall g, In g created -> base < g) ->
  (forall g d, m_data m g = Some d -> (g <= base \/ In g created) /\ exists r, deser c d = Some r /\ r_gsn r = g) ->
  remove_recent m created t i = Some m' -> J m' /\ base <= m_last m'.
Proof.
  intros Er Hl Hs Hrs Hcr Hd H. unfold remove_recent in H. rewrite Er, rtrim_app in H.
  destruct (rtrim (ids_of_stream m (get_stream t i)) (length created)) as [ss|]; [|discriminate].
  destruct (rtrim (aget t (m_types m)) (length created)) as [ts|]; [|discriminate].
  injection H as <-. split; [|cbn; lia]. constructor; cbn [m_records m_data m_last].
  - exact Hs.
  - intros g Hg. apply Hrs in Hg. lia.
  - intros g d Hg. apply fold_nset_in in Hg. destruct Hg as [Hn Hg]. destruct (Hd g d Hg) as [[H1|H1] H2]; [|contradiction].
    split; [lia|exact H2].
  - intros g Hg. destruct (Hrs g Hg) as [H1 H2]. rewrite fold_nset_none; auto.
    intros Hin. apply Hcr in Hin. lia.
Qed.

Lemma J_save_loop base rs evs : forall m s at_ ai ex cn n created pending last,
  J m -> m_records m = rs ++ created -> m_last m = base + N.of_nat (length created) ->
  StronglySorted N.lt rs -> (forall g, In g rs -> g <= base) ->
  (forall g, In g created -> base < g) ->
  (forall g d, m_data m g = Some d -> g <= base \/ In g created) ->
  map r_gsn (decoded c pending) = created ->
  match mem_save_loop c m s at_ ai ex cn n created pending last evs with
  | (m', SaveOk _ pending') => J m' /\ base <= m_last m'
      /\ exists created', map r_gsn (decoded c pending') = created' /\ StronglySorted N.lt created'
         /\ forall g, In g created' -> base < g <= m_last m'
  | (m', SaveErr _) => J m' /\ base <= m_last m'
  | (m', SavePanic) => base <= m_last m'
  end.
Proof.
  induction evs as [|e evs IH]; intros m s at_ ai ex cn n created pending last HJ Hr Hl Hs Hrs Hcr Hd Hp; cbn [mem_save_loop].
  - split; auto. split; [lia|]. exists created. split; auto. split.
    + pose proof (J_sorted _ HJ) as HS. rewrite Hr in HS. clear - HS. induction rs as [|a rs IH]; auto.
      cbn in HS. inversion HS; auto.
    + intros g Hg. split; [auto|]. apply (J_last _ HJ). rewrite Hr. apply in_or_app. auto.
  - destruct (negb (String.eqb at_ "") && negb (String.eqb at_ (ev_atype e))); [split; [auto|lia]|].
    destruct (negb (String.eqb ai "") && negb (String.eqb ai (ev_aid e))); [split; [auto|lia]|].
    destruct (done_at cn n); [split; [auto|lia]|].
    pose proof (J_save_event m s ex e HJ) as HE. destruct (mem_save_event c m s ex e) as [m1 [er|[d r]]].
    + destruct HE as (E1 & E2 & E3).
      destruct (remove_recent m1 created (ev_atype e) (ev_aid e)) as [m2|] eqn:Erm; [|lia].
      eapply (J_rollback m1 base rs created); eauto; try lia; try congruence.
      * intros g Hg. split; auto. rewrite E2. apply (J_present _ HJ). rewrite Hr. apply in_or_app; auto.
      * intros g d Hg. rewrite E2 in Hg. split; [eauto|]. apply (J_data _ HJ) in Hg. apply Hg.
    + destruct HE as (HJ1 & E1 & E2 & E3 & E4 & E5). apply IH; auto.
      * now rewrite E1, Hr, app_assoc.
      * rewrite E3, app_length. cbn [length]. lia.
      * intros g Hg. apply in_app_or in Hg. destruct Hg as [Hg|[<-|[]]]; [auto|lia].
      * intros g x Hg. destruct (E5 _ _ Hg) as [->|Hg']; [right; apply in_or_app; cbn; auto|].
        destruct (Hd _ _ Hg'); auto. right. apply in_or_app; auto.
      * rewrite decoded_app, map_app, Hp. cbn. now rewrite E4.
Qed.

Definition K (m : mem) : Prop := m_locked m = true \/ J m.

(** What one call does to the numbers. *)
Definition step_fact (m m' : mem) (x : out) : Prop :=
  K m' /\ m_last m <= m_last m' /\ gsn_increasing (saved x)
  /\ (forall r, In r (saved x) -> m_last m < r_gsn r)
  /\ (forall r, In r (shown x) -> r_gsn r <= m_last m').

Lemma fact_quiet m x : K m -> saved x = [] -> shown x = [] -> step_fact m m x.
Proof.
  intros HK H1 H2. unfold step_fact. rewrite H1, H2. repeat split; auto; try lia; try contradiction. constructor.
Qed.

Lemma sorted_map_gsn l : StronglySorted N.lt (map r_gsn l) -> gsn_increasing l.
Proof.
  induction l as [|a l IH]; cbn; intros H; [constructor|]. inversion H as [|? ? H1 H2]; subst.
  apply incr_cons; [auto|]. intros b Hb. rewrite Forall_forall in H2. apply H2. now apply in_map.
Qed.

Lemma J_save m ex s evs cn m' x : J m -> mem_save c m ex s evs cn = (m', x) -> step_fact m m' x.
Proof.
  intros HJ. unfold mem_save. destruct evs as [|e evs].
  { intros [= <- <-]. apply fact_quiet; auto. now right. }
  assert (H : match mem_save_loop c m s "" "" ex cn 0 [] [] 0 (e :: evs) with
    | (m', SaveOk _ pending') => J m' /\ m_last m <= m_last m'
        /\ exists created', map r_gsn (decoded c pending') = created' /\ StronglySorted N.lt created'
           /\ forall g, In g created' -> m_last m < g <= m_last m'
    | (m', SaveErr _) => J m' /\ m_last m <= m_last m'
    | (m', SavePanic) => m_last m <= m_last m'
    end).
  { apply (J_save_loop (m_last m) (m_records m)); auto.
    - now rewrite app_nil_r.
    - cbn. lia.
    - apply HJ.
    - apply (J_last _ HJ).
    - intros ? [].
    - intros g d Hg. left. apply (J_data _ HJ) in Hg. apply Hg. }
  destruct (mem_save_loop c m s "" "" ex cn 0 [] [] 0 (e :: evs)) as [m1 [last p|er|]]; intros [= <- <-]; unfold step_fact; cbn [saved shown].
  - destruct H as (H1 & H2 & cr & H3 & H4 & H5). split; [now right|]. split; auto. subst cr.
    split; [now apply sorted_map_gsn|]. split; intros r Hr; apply (H5 (r_gsn r)); now apply in_map.
  - destruct H. split; [now right|]. split; auto. repeat split; try contradiction. constructor.
  - split; [now left|]. cbn. split; auto. repeat split; try contradiction. constructor.
Qed.

Lemma sub_records_by_ids m keep cn cons : J m -> forall ids k r,
  In (RRec r) (records_by_ids c m keep cn cons k ids) -> r_gsn r <= m_last m.
Proof.
  intros HJ. induction ids as [|id ids IH]; intros k r; cbn [records_by_ids]; [contradiction|].
  destruct (m_data m id) as [d|] eqn:Ed; [|intros [?|[]]; discriminate].
  destruct (deser c d) as [r'|] eqn:Er; [|intros [?|[]]; discriminate].
  destruct (keep r'); [|apply IH].
  unfold publish. destruct (done_at cn k).
  - destruct cons; [intros [?|[]]; discriminate|contradiction].
  - cbn [app]. intros [[= <-]|H]; [|eapply IH; eauto].
    destruct (J_data _ HJ _ _ Ed) as [H1 (r2 & H2 & H3)]. assert (r2 = r') by congruence. subst. lia.
Qed.

Lemma recs_of_in l r : In r (recs_of l) -> In (RRec r) l.
Proof. induction l as [|[x|e] l IH]; cbn; intuition congruence. Qed.

Lemma J_delete m ex s cn m' x : J m -> mem_delete m ex s cn = (m', x) -> step_fact m m' x.
Proof.
  intros HJ. unfold mem_delete. assert (HK : K m) by now right.
  destruct (done_at cn 0); [intros [= <- <-]; now apply fact_quiet|].
  destruct (m_streams m s) as [ids|]; [|intros [= <- <-]; now apply fact_quiet].
  destruct (negb _); [intros [= <- <-]; now apply fact_quiet|].
  destruct (delete_loop m ids) as [m1|] eqn:E; intros [= <- <-].
  2:{ unfold step_fact. cbn. repeat split; try contradiction; try lia; [now left|constructor]. }
  assert (H : J m1 /\ m_last m1 = m_last m).
  { revert m HJ HK E. induction ids as [|y ids IH]; intros m HJ HK E; cbn in E; [injection E as <-; auto|].
    pose proof (sorted_nodup _ (J_sorted _ HJ)) as Hnd. rewrite remove_in_place_ok in E by exact Hnd.
    destruct (remove_from_types y (m_types m)) as [ts|]; [|discriminate].
    set (m2 := mk_mem (m_last m) (drop_id y (m_records m)) (m_streams m) ts
       (if existsb (N.eqb y) (m_records m) then nset y None (m_data m) else m_data m) (m_locked m)) in *.
    assert (HJ2 : J m2).
    { constructor; unfold m2; cbn [m_records m_data m_last].
      - apply sorted_filter, HJ.
      - intros g Hg. apply filter_In in Hg. apply (J_last _ HJ). tauto.
      - intros g d Hg. destruct (existsb _ _); [|now apply (J_data _ HJ)].
        unfold nset in Hg. destruct (g =? y); [discriminate|]. now apply (J_data _ HJ).
      - intros g Hg. apply filter_In in Hg. destruct Hg as [Hg Hne]. apply Bool.negb_true_iff in Hne.
        destruct (existsb _ _); [|now apply (J_present _ HJ)].
        unfold nset. rewrite Hne. now apply (J_present _ HJ). }
    destruct (IH m2 HJ2 (or_intror HJ2) E) as [H1 H2]. split; auto. }
  destruct H as [H1 H2]. unfold step_fact. cbn. rewrite H2. repeat split; try contradiction; try lia; [|constructor].
  right. destruct H1. rewrite H2 in *. constructor; cbn; auto; rewrite ?H2; auto.
Qed.

Lemma fact_step m o : K m -> step_fact m (fst (mem_step c m o)) (snd (mem_step c m o)).
Proof.
  intros HK. destruct (m_locked m) eqn:El.
  - assert (Q : forall x, saved x = [] -> shown x = [] -> step_fact m m x) by (intros; now apply fact_quiet).
    destruct o as [ex s evs cn|ex s cn|g|g ts|k s|s cn]; cbn [mem_step]; rewrite ?El.
    + destruct evs; now apply Q.
    + destruct (done_at cn 0); now apply Q.
    + now apply Q.
    + destruct ts; cbn [length Nat.eqb negb andb]; [|now apply Q]. apply Q; reflexivity.
    + now apply Q.
    + destruct (done_at cn 0); now apply Q.
  - destruct HK as [HK|HJ]; [congruence|].
    assert (Q : forall x, saved x = [] -> (forall r, In r (shown x) -> r_gsn r <= m_last m) -> step_fact m m x).
    { intros x Hx Hs. unfold step_fact. rewrite Hx. repeat split; auto; try lia; try contradiction; [now right|constructor]. }
    destruct o as [ex s evs cn|ex s cn|g|g ts|k s|s cn]; cbn [mem_step]; rewrite ?El.
    + destruct evs as [|e evs]; [apply Q; [reflexivity|contradiction]|].
      destruct (mem_save c m ex s (e :: evs) cn) as [m' x] eqn:E. eapply J_save; eauto.
    + destruct (done_at cn 0); [apply Q; [reflexivity|contradiction]|].
      destruct (mem_delete m ex s cn) as [m' x] eqn:E. eapply J_delete; eauto.
    + apply Q; [reflexivity|]. intros r Hr. apply recs_of_in in Hr. eapply sub_records_by_ids; eauto.
    + cbn [andb]. destruct (mem_by_types c m g ts) as [l|] eqn:E; apply Q; try reflexivity; [|contradiction].
      cbn [shown]. unfold mem_by_types in E.
      assert (HA : forall t, iter_all (fun r => r_gsn r <= m_last m)
                (new_iter (records_by_ids c m (from_gsn g) None true 0 (aget t (m_types m))))).
      { intros t. split; cbn; [|discriminate]. intros r Hr. eapply sub_records_by_ids; eauto. }
      destruct ts as [|t [|t2 ts]].
      * injection E as <-. contradiction.
      * injection E as <-. intros r Hr. apply recs_of_in in Hr. eapply sub_records_by_ids; eauto.
      * apply (merge_results_all (fun r => r_gsn r <= m_last m)) in E.
        -- rewrite Forall_forall in E. exact E.
        -- apply Forall_map, Forall_forall. intros t' _. apply HA.
    + apply Q; [reflexivity|]. cbn [shown]. unfold mem_by_stream.
      destruct (m_streams m s) as [[|id ids]|]; try contradiction.
      intros r Hr. apply recs_of_in in Hr. eapply sub_records_by_ids; eauto.
    + destruct (done_at cn 0) eqn:Ed; [apply Q; [reflexivity|contradiction]|].
      unfold mem_total. rewrite Ed. apply Q; [reflexivity|contradiction].
Qed.

Definition outs (m : mem) (ops : list op) : list out := snd (run (mem_step c) m ops).

Lemma fact_run ops : forall m, K m ->
  K (fst (run (mem_step c) m ops))
  /\ (forall j y r, nth_error (outs m ops) j = Some y -> In r (saved y) -> m_last m < r_gsn r).
Proof.
  induction ops as [|o ops IH]; intros m HK; unfold outs; cbn [run].
  - split; auto. intros [|j] y r H; discriminate.
  - pose proof (fact_step m o HK) as HF. destruct (mem_step c m o) as [m1 x]. cbn [fst snd] in HF.
    destruct HF as (HK1 & Hl & _ & Hsv & _).
    destruct (IH m1 HK1) as [HK2 H2]. unfold outs in H2. destruct (run (mem_step c) m1 ops) as [m2 xs]. cbn [fst snd] in *.
    split; auto. intros [|j] y r Hy Hr; cbn in Hy.
    + injection Hy as <-. auto.
    + specialize (H2 j y r Hy Hr). lia.
Qed.

Lemma numbers_ok ops : forall m, K m ->
  (forall i j x y r r', (i < j)%nat -> nth_error (outs m ops) i = Some x -> nth_error (outs m ops) j = Some y ->
     In r (shown x) -> In r' (saved y) -> r_gsn r < r_gsn r')
  /\ (forall i x, nth_error (outs m ops) i = Some x -> gsn_increasing (saved x)).
Proof.
  induction ops as [|o ops IH]; intros m HK; unfold outs; cbn [run].
  - split; intros [|i]; intros; discriminate.
  - pose proof (fact_step m o HK) as HF. destruct (mem_step c m o) as [m1 x0]. cbn [fst snd] in HF.
    destruct HF as (HK1 & Hl & Hinc & Hsv & Hsh).
    destruct (fact_run ops m1 HK1) as [_ HF2]. destruct (IH m1 HK1) as [IH1 IH2].
    unfold outs in *. destruct (run (mem_step c) m1 ops) as [m2 xs]. cbn [fst snd] in *.
    split.
    + intros i j x y r r' Hij Hx Hy Hr Hr'. destruct j as [|j]; [lia|]. cbn in Hy.
      destruct i as [|i]; cbn in Hx.
      * injection Hx as <-. specialize (HF2 _ _ _ Hy Hr'). specialize (Hsh _ Hr). lia.
      * eapply (IH1 i j); eauto. lia.
    + intros [|i] x Hx; cbn in Hx; [injection Hx as <-; auto|eauto].
Qed.

(** Events in an arbitrary reachable state. *)
Lemma events_sorted m g : J m -> exists rs, mem_events c m g = map RRec rs /\ gsn_increasing rs
  /\ forall r, In r rs -> g <= r_gsn r.
Proof.
  intros HJ. unfold mem_events. pose proof (J_sorted _ HJ) as HS.
  assert (HP := J_present _ HJ). revert HS HP. generalize (m_records m) as ids. generalize 0%nat as k.
  intros k ids HS. revert k. induction HS as [|id ids HS IH HF]; intros k HP; cbn [records_by_ids].
  - exists []. split; [reflexivity|]. split; [constructor|contradiction].
  - destruct (m_data m id) as [d|] eqn:Ed; [|exfalso; eapply HP; [now left|exact Ed]].
    destruct (J_data _ HJ _ _ Ed) as [_ (r & Er & Eg)]. rewrite Er.
    assert (B : forall k rs, records_by_ids c m (from_gsn g) None true k ids = map RRec rs ->
              forall r', In r' rs -> In (r_gsn r') ids).
    { clear - HJ. induction ids as [|i ids IH]; intros k rs H r' Hr'; cbn [records_by_ids] in H.
      - destruct rs; [contradiction|discriminate].
      - destruct (m_data m i) as [d|] eqn:Ed; [|destruct rs as [|? [|? ?]]; cbn in H; discriminate].
        destruct (J_data _ HJ _ _ Ed) as [_ (r & Er & Eg)]. rewrite Er in H.
        destruct (from_gsn g r).
        + cbn [publish done_at app] in H. destruct rs as [|r0 rs]; [discriminate|]. injection H as <- H.
          destruct Hr' as [<-|Hr']; [left; auto|right; eapply IH; eauto].
        + right. eapply IH; eauto. }
    destruct (from_gsn g r) eqn:Ek.
    + cbn [publish done_at app]. destruct (IH (S k)) as (rs & E & Hinc & Hge); [intros; apply HP; now right|].
      exists (r :: rs). rewrite E. split; [reflexivity|]. split.
      * apply incr_cons; auto. intros b Hb. apply (B _ _ E) in Hb. rewrite Forall_forall in HF. apply HF in Hb. lia.
      * intros r' [<-|Hr']; auto. unfold from_gsn in Ek. now apply N.leb_le.
    + destruct (IH k) as (rs & E & H); [intros; apply HP; now right|]. eauto.
Qed.
End WithCodec.
