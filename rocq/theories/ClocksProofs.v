(** Proofs about times and IDs: everything a store ever shows is in one book. *)
From Coq Require Import Sorting.Sorted Arith.
From Verif Require Import Base Core CoreSpec LogSpec StoreSpec InMemory InMemoryProofs InMemoryNumbers LogProofs LevelDB LevelDBSpec LevelDBProofs LevelDBRun ClocksSpec.

Lemma part_refl {A} (l : list A) : part_of l l.
Proof. induction l; constructor; auto. Qed.
Lemma part_app {A} (a a' b b' : list A) : part_of a a' -> part_of b b' -> part_of (a ++ b) (a' ++ b').
Proof.
  intros H Hb. induction H; cbn; try (constructor; auto).
  induction l; cbn; auto. constructor. auto.
Qed.
Lemma part_in {A} (a b : list A) x : part_of a b -> In x a -> In x b.
Proof. induction 1; cbn; intuition. Qed.
Lemma part_trans {A} (a b d : list A) : part_of a b -> part_of b d -> part_of a d.
Proof.
  intros H1 H2. revert a H1. induction H2 as [l|x l l' H IH|x l l' H IH]; intros a H1.
  - inversion H1. constructor.
  - inversion H1; subst; constructor; auto.
  - constructor. auto.
Qed.
Lemma part_map {A B} (f : A -> B) a b : part_of a b -> part_of (map f a) (map f b).
Proof. induction 1; cbn; constructor; auto. Qed.
Lemma part_sorted (a b : list N) : part_of a b -> StronglySorted N.le b -> StronglySorted N.le a.
Proof.
  induction 1 as [l|x l l' H IH|x l l' H IH]; intros Hs; [constructor| |]; inversion Hs as [|? ? H1 H2]; subst; auto.
  constructor; auto. rewrite Forall_forall in *. intros y Hy. apply H2. eapply part_in; eauto.
Qed.
Lemma part_nodup {A} (a b : list A) : part_of a b -> NoDup b -> NoDup a.
Proof.
  induction 1 as [l|x l l' H IH|x l l' H IH]; intros Hs; [constructor| |]; inversion Hs as [|? ? H1 H2]; subst; auto.
  constructor; auto. intros Hx. apply H1. eapply part_in; eauto.
Qed.

Definition rstamp (r : record) : N * string := (r_ts r, r_eid r).
Definition estamp (e : event) : N * string := (ev_now e, ev_uuid e).

Definition rising (l : list record) : Prop := StronglySorted N.lt (map r_gsn l).
Lemma rising_app a b : rising a -> rising b -> (forall x y, In x a -> In y b -> r_gsn x < r_gsn y) -> rising (a ++ b).
Proof.
  unfold rising. intros Ha Hb H. induction a as [|x a IH]; auto. cbn in *. inversion Ha as [|? ? H1 H2]; subst.
  constructor; auto. rewrite Forall_forall in *. intros y Hy. rewrite map_app in Hy. apply in_app_or in Hy.
  destruct Hy as [Hy|Hy]; auto. apply in_map_iff in Hy. destruct Hy as (z & <- & Hz). auto.
Qed.

Section Book.
Context {S : Type}.
Variables (step : S -> op -> S * out) (ok : S -> Prop) (visible : S -> record -> Prop) (last : S -> N).
Hypothesis step_ok : forall s o, ok s -> let s' := fst (step s o) in let x := snd (step s o) in
  ok s' /\ last s <= last s' /\ exists fresh,
    rising fresh /\ (forall r, In r fresh -> last s < r_gsn r <= last s')
    /\ part_of (map rstamp fresh) (map estamp (batch o))
    /\ (forall r, visible s' r -> visible s r \/ In r fresh)
    /\ (forall r, In r (shown x) -> visible s r \/ In r fresh).

Lemma book ops : forall s B past, ok s -> rising B -> (forall r, In r B -> r_gsn r <= last s) ->
  (forall r, visible s r -> In r B) -> part_of (map rstamp B) (map estamp past) ->
  exists B', rising B' /\ part_of (map rstamp B') (map estamp (past ++ passed ops))
    /\ (forall r, In r B -> In r B')
    /\ forall x r, In x (snd (run step s ops)) -> In r (shown x) -> In r B'.
Proof.
  induction ops as [|o ops IH]; intros s B past Hok HB Hl Hv Hp; cbn [run].
  - exists B. split; auto. split; [cbn; now rewrite app_nil_r|]. split; auto. contradiction.
  - pose proof (step_ok s o Hok) as (Ho & Hle & fresh & F1 & F2 & F3 & F4 & F5).
    destruct (step s o) as [s' x]. cbn [fst snd] in *.
    destruct (IH s' (B ++ fresh) (past ++ batch o) Ho) as (B' & G1 & G2 & G3 & G4).
    + apply rising_app; auto. intros a b Ha Hb. apply Hl in Ha. apply F2 in Hb. lia.
    + intros r Hr. apply in_app_or in Hr. destruct Hr as [Hr|Hr]; [apply Hl in Hr; lia|apply F2 in Hr; lia].
    + intros r Hr. apply in_or_app. destruct (F4 r Hr); auto.
    + rewrite !map_app. now apply part_app.
    + destruct (run step s' ops) as [s2 xs]. cbn [fst snd] in *. exists B'. split; auto.
      split; [cbn [passed flat_map]; now rewrite app_assoc|].
      split; [intros r Hr; apply G3, in_or_app; auto|].
      intros y r [<-|Hy] Hr; [|eauto]. apply G3, in_or_app. destruct (F5 r Hr); auto.
Qed.
End Book.

(** Consequences of being in the book. *)
Lemma rising_in B r r' : rising B -> In r B -> In r' B -> r_gsn r < r_gsn r' ->
  exists a b d, B = a ++ r :: b ++ r' :: d.
Proof.
  intros HB Hr Hr' Hlt. apply in_split in Hr. destruct Hr as (a & t & ->).
  unfold rising in HB. rewrite map_app in HB. cbn in HB.
  apply in_app_or in Hr'. destruct Hr' as [Hr'|[->|Hr']]; [exfalso| exfalso; lia|].
  - apply in_split in Hr'. destruct Hr' as (u & v & ->). rewrite map_app in HB. cbn in HB. rewrite <- app_assoc in HB.
    clear - HB Hlt. induction (map r_gsn u) as [|z l IH]; cbn in HB; inversion HB as [|? ? H1 H2]; subst; auto.
    rewrite Forall_forall in H2. specialize (H2 (r_gsn r)). assert (In (r_gsn r) (map r_gsn v ++ r_gsn r :: map r_gsn t)) by (apply in_or_app; cbn; auto).
    apply H2 in H. lia.
  - apply in_split in Hr'. destruct Hr' as (u & v & ->). eauto.
Qed.
Lemma rising_same B r r' : rising B -> In r B -> In r' B -> r_gsn r = r_gsn r' -> r = r'.
Proof.
  unfold rising. induction B as [|x B IH]; cbn; [contradiction|]. intros HB. inversion HB as [|? ? H1 H2]; subst.
  rewrite Forall_forall in H2.
  intros [->|Hr] [->|Hr'] E; auto.
  - apply (in_map r_gsn) in Hr'. apply H2 in Hr'. lia.
  - apply (in_map r_gsn) in Hr. apply H2 in Hr. lia.
Qed.
Lemma book_times B evs r r' : rising B -> part_of (map rstamp B) (map estamp evs) -> StronglySorted N.le (map ev_now evs) ->
  In r B -> In r' B -> r_gsn r < r_gsn r' -> r_ts r <= r_ts r'.
Proof.
  intros HB Hp Hs Hr Hr' Hlt. destruct (rising_in B r r' HB Hr Hr' Hlt) as (a & b & d & ->).
  assert (H : part_of (map r_ts (a ++ r :: b ++ r' :: d)) (map ev_now evs)).
  { apply (part_map fst) in Hp. rewrite !map_map in Hp. exact Hp. }
  apply part_sorted in H; auto. clear - H. rewrite map_app in H. cbn in H. rewrite map_app in H. cbn in H.
  induction (map r_ts a) as [|z l IH]; cbn in H; inversion H as [|? ? H1 H2]; subst; auto.
  rewrite Forall_forall in H2. apply H2. apply in_or_app. cbn. auto.
Qed.
Lemma nodup_map_inj {A C} (f : A -> C) l x y : NoDup (map f l) -> In x l -> In y l -> f x = f y -> x = y.
Proof.
  induction l as [|a l IH]; cbn; [contradiction|]. intros Hn. inversion Hn as [|? ? H1 H2]; subst.
  intros [->|Hx] [->|Hy] E; auto.
  - exfalso. apply H1. rewrite E. now apply in_map.
  - exfalso. apply H1. rewrite <- E. now apply in_map.
Qed.
Lemma book_ids B evs r r' : part_of (map rstamp B) (map estamp evs) -> NoDup (map ev_uuid evs) ->
  In r B -> In r' B -> r_eid r = r_eid r' -> r = r'.
Proof.
  intros Hp Hn Hr Hr' E. apply (part_map snd) in Hp. rewrite !map_map in Hp. apply part_nodup in Hp; auto.
  eapply (nodup_map_inj r_eid); eauto.
Qed.

(** * The in-memory store *)
Section Memory.
Variable c : codec.
Hypothesis Hc : codec_ok c.

Definition mem_visible (m : mem) (r : record) : Prop :=
  m_locked m = false /\ exists g d, m_data m g = Some d /\ deser c d = Some r.

Lemma save_event_stamp m s ex e : J c m ->
  match mem_save_event c m s ex e with
  | (m1, inl _) => True
  | (_, inr (d, r)) => rstamp r = estamp e
  end.
Proof.
  intros HJ. unfold mem_save_event. destruct (match ex with Some _ => _ | None => _ end); auto.
  destruct (ser c _); auto.
Qed.

Lemma save_event_data m s ex e g x :
  match mem_save_event c m s ex e with
  | (m1, inl _) => m_data m1 = m_data m
  | (m1, inr (d, r)) => m_data m1 g = Some x -> (g = r_gsn r /\ x = d) \/ m_data m g = Some x
  end.
Proof.
  unfold mem_save_event. destruct (match ex with Some _ => _ | None => _ end); auto.
  destruct (ser c _); auto. cbn. unfold nset. destruct (N.eqb_spec g (m_last m + 1)); [|auto]. intros [= <-]. auto.
Qed.

Lemma loop_book m0 evs : forall m s at_ ai ex cn n created pending last done,
  J c m -> m_last m0 <= m_last m -> rising done -> map r_gsn done = created -> decoded c pending = done ->
  (forall r, In r done -> m_last m0 < r_gsn r <= m_last m) ->
  (forall g d r, m_data m g = Some d -> deser c d = Some r -> m_data m0 g = Some d \/ In r done) ->
  let p := mem_save_loop c m s at_ ai ex cn n created pending last evs in
  exists done', rising (done ++ done') /\ part_of (map rstamp done') (map estamp evs)
  /\ match snd p with
     | SaveOk _ pending' => decoded c pending' = done ++ done' /\ (forall r, In r (done ++ done') -> m_last m0 < r_gsn r <= m_last (fst p))
         /\ (forall g d r, m_data (fst p) g = Some d -> deser c d = Some r -> m_data m0 g = Some d \/ In r (done ++ done'))
     | SaveErr _ => (forall g d r, m_data (fst p) g = Some d -> deser c d = Some r -> m_data m0 g = Some d)
                 \/ ((forall r, In r (done ++ done') -> m_last m0 < r_gsn r <= m_last (fst p))
                     /\ (forall g d r, m_data (fst p) g = Some d -> deser c d = Some r -> m_data m0 g = Some d \/ In r (done ++ done')))
     | SavePanic => True
     end.
Proof.
  induction evs as [|e evs IH]; intros m s at_ ai ex cn n created pending last done HJ Hm Hr Hg Hd Hb Hdat p; unfold p; clear p; cbn [mem_save_loop].
  - exists []. rewrite app_nil_r. cbn [fst snd]. split; auto. split; [constructor|auto].
  - assert (Stay : forall er, exists done', rising (done ++ done') /\ part_of (map rstamp done') (map estamp (e :: evs))
      /\ match snd (m, SaveErr er) with
         | SaveOk _ _ => False
         | SaveErr _ => (forall g d r, m_data (fst (m, SaveErr er)) g = Some d -> deser c d = Some r -> m_data m0 g = Some d)
                 \/ ((forall r, In r (done ++ done') -> m_last m0 < r_gsn r <= m_last m)
                     /\ (forall g d r, m_data m g = Some d -> deser c d = Some r -> m_data m0 g = Some d \/ In r (done ++ done')))
         | SavePanic => True end).
    { intros er. exists []. rewrite app_nil_r. split; auto. split; [constructor|]. right. auto. }
    destruct (negb (String.eqb at_ "") && negb (String.eqb at_ (ev_atype e))); [apply (Stay EUnmatchedType)|].
    destruct (negb (String.eqb ai "") && negb (String.eqb ai (ev_aid e))); [apply (Stay EUnmatchedID)|].
    destruct (done_at cn n); [apply (Stay ECanceled)|]. clear Stay.
    pose proof (J_save_event c Hc m s ex e HJ) as HE. pose proof (save_event_stamp m s ex e HJ) as HS.
    pose proof (fun g x => save_event_data m s ex e g x) as HD.
    destruct (mem_save_event c m s ex e) as [m1 [er|[d r]]].
    + destruct HE as (E1 & E2 & E3). exists []. rewrite app_nil_r. split; auto.
      split; [constructor|].
      destruct (remove_recent m1 created (ev_atype e) (ev_aid e)) as [m2|] eqn:Erm; [|exact Logic.I].
      cbn [fst snd]. left. intros g d r H1 H2. unfold remove_recent in Erm.
      destruct (rtrim (m_records m1) _); [|discriminate]. destruct (rtrim (ids_of_stream m1 _) _); [|discriminate].
      destruct (rtrim (aget _ _) _); [|discriminate]. injection Erm as <-. cbn [m_data] in H1.
      apply fold_nset_in in H1. destruct H1 as [H1 H3]. rewrite E2 in H3.
      destruct (Hdat g d r H3 H2) as [H4|H4]; auto. exfalso. apply H1. subst created.
      destruct (J_data _ _ HJ _ _ H3) as [_ (r2 & H5 & H6)]. assert (r2 = r) by congruence. subst r2.
      rewrite <- H6. now apply in_map.
    + destruct HE as (HJ1 & E1 & E2 & E3 & E4 & E5).
      destruct (IH m1 s (ev_atype e) (ev_aid e) (match ex with Some x => Some (x + 1) | None => None end) cn (Datatypes.S n)
                  (created ++ [r_gsn r]) (pending ++ [d]) (r_ssn r) (done ++ [r])) as (dn & D1 & D2 & D3); auto.
      * lia.
      * apply rising_app; auto; [repeat constructor|]. intros x y Hx [<-|[]]. apply Hb in Hx. lia.
      * rewrite map_app. cbn. congruence.
      * rewrite decoded_app, Hd. cbn. now rewrite E4.
      * intros x Hx. apply in_app_or in Hx. destruct Hx as [Hx|[<-|[]]]; [apply Hb in Hx; lia|lia].
      * intros g x y Hx Hy. destruct (HD g x Hx) as [[-> ->]|Hx'].
        -- right. apply in_or_app. right. left. congruence.
        -- destruct (Hdat g x y Hx' Hy); auto. right. apply in_or_app. auto.
      * exists (r :: dn). rewrite <- app_assoc in D1, D3. cbn [app] in D1, D3. split; auto.
        split; [|exact D3]. cbn [map]. rewrite HS. now constructor.
Qed.

Lemma read_visible m keep cn cons : m_locked m = false -> forall ids k r,
  In (RRec r) (records_by_ids c m keep cn cons k ids) -> mem_visible m r.
Proof.
  intros Hl. induction ids as [|id ids IH]; intros k r; cbn [records_by_ids]; [contradiction|].
  destruct (m_data m id) as [d|] eqn:Ed; [|intros [?|[]]; discriminate].
  destruct (deser c d) as [r'|] eqn:Er; [|intros [?|[]]; discriminate].
  destruct (keep r'); [|apply IH].
  unfold publish. destruct (done_at cn k).
  - destruct cons; [intros [?|[]]; discriminate|contradiction].
  - cbn [app]. intros [[= <-]|H]; [|eapply IH; eauto]. split; auto. eauto.
Qed.

Lemma delete_data ids : forall m m1, delete_loop m ids = Some m1 ->
  forall g d, m_data m1 g = Some d -> m_data m g = Some d.
Proof.
  induction ids as [|y ids IH]; intros m m1 E g d H; cbn in E; [injection E as <-; auto|].
  destruct (remove_in_place y (m_records m)); [|discriminate]. destruct (remove_from_types y (m_types m)); [|discriminate].
  apply (IH _ _ E) in H. cbn [m_data] in H. destruct (existsb _ _); auto. unfold nset in H. destruct (g =? y); [discriminate|auto].
Qed.

Lemma mem_step_book m o : K c m -> let m' := fst (mem_step c m o) in let x := snd (mem_step c m o) in
  K c m' /\ m_last m <= m_last m' /\ exists fresh,
    rising fresh /\ (forall r, In r fresh -> m_last m < r_gsn r <= m_last m')
    /\ part_of (map rstamp fresh) (map estamp (batch o))
    /\ (forall r, mem_visible m' r -> mem_visible m r \/ In r fresh)
    /\ (forall r, In r (shown x) -> mem_visible m r \/ In r fresh).
Proof.
  intros HK. pose proof (fact_step c Hc m o HK) as HF. cbv zeta. unfold step_fact in HF.
  destruct HF as (F1 & F2 & _). split; [exact F1|]. split; [exact F2|].
  assert (Q : forall m' x, m_locked m' = true \/ (forall g d, m_data m' g = Some d -> m_locked m' = m_locked m /\ m_data m g = Some d) ->
     (forall r, In r (shown x) -> mem_visible m r) ->
     exists fresh, rising fresh /\ (forall r, In r fresh -> m_last m < r_gsn r <= m_last m')
     /\ part_of (map rstamp fresh) (map estamp (batch o))
     /\ (forall r, mem_visible m' r -> mem_visible m r \/ In r fresh)
     /\ (forall r, In r (shown x) -> mem_visible m r \/ In r fresh)).
  { intros m' x Hm Hx. exists []. split; [constructor|]. split; [contradiction|]. split; [constructor|].
    split; [|auto]. intros r [Hl (g & d & H1 & H2)]. left. destruct Hm as [Hm|Hm]; [congruence|].
    destruct (Hm g d H1) as [H3 H4]. split; [congruence|eauto]. }
  assert (Q0 : forall x, (forall r, In r (shown x) -> mem_visible m r) ->
     exists fresh, rising fresh /\ (forall r, In r fresh -> m_last m < r_gsn r <= m_last m)
     /\ part_of (map rstamp fresh) (map estamp (batch o))
     /\ (forall r, mem_visible m r -> mem_visible m r \/ In r fresh)
     /\ (forall r, In r (shown x) -> mem_visible m r \/ In r fresh)) by (intros x; apply Q; right; auto).
  clear F1 F2. destruct (m_locked m) eqn:El.
  - destruct o as [ex s evs cn|ex s cn|g|g ts|k s|s cn]; cbn [mem_step]; rewrite ?El.
    + destruct evs; apply Q0; contradiction.
    + destruct (done_at cn 0); apply Q0; contradiction.
    + apply Q0; contradiction.
    + destruct ts; cbn [length Nat.eqb negb andb]; [|apply Q0; contradiction]. apply Q0; contradiction.
    + apply Q0; contradiction.
    + destruct (done_at cn 0); apply Q0; contradiction.
  - destruct HK as [HK|HJ]; [congruence|].
    destruct o as [ex s evs cn|ex s cn|g|g ts|k s|s cn]; cbn [mem_step]; rewrite ?El.
    + destruct evs as [|e evs]; [apply Q0; contradiction|].
      unfold mem_save.
      destruct (loop_book m (e :: evs) m s "" "" ex cn 0 [] [] 0 []) as (fresh & L1 & L2 & L3); auto; try reflexivity; try contradiction; try constructor.
      cbn [app] in L1, L3. destruct (mem_save_loop c m s "" "" ex cn 0 [] [] 0 (e :: evs)) as [m1 [last p|er|]]; cbn [fst snd] in *.
      * destruct L3 as (L3 & L4 & L5). exists fresh. split; auto. split; auto. split; [exact L2|]. split.
        -- intros r [Hl (g & d & H1 & H2)]. destruct (L5 _ _ _ H1 H2); auto. left. split; eauto.
        -- cbn [shown]. rewrite L3. auto.
      * destruct L3 as [L3|[L4 L5]].
        -- exists []. split; [constructor|]. split; [contradiction|]. split; [constructor|]. split; [|contradiction].
           intros r [Hl (g & d & H1 & H2)]. left. split; [exact El|]. exists g, d. split; eauto.
        -- exists fresh. split; auto. split; auto. split; [exact L2|]. split; [|contradiction].
           intros r [Hl (g & d & H1 & H2)]. destruct (L5 _ _ _ H1 H2); auto. left. split; eauto.
      * apply Q; [now left|contradiction].
    + destruct (done_at cn 0) eqn:Ed; [apply Q0; contradiction|]. unfold mem_delete. rewrite Ed.
      destruct (m_streams m s) as [ids|]; [|apply Q0; contradiction].
      destruct (negb _); [apply Q0; contradiction|].
      destruct (delete_loop m ids) as [m1|] eqn:E; [|apply Q; [now left|contradiction]].
      apply Q; [|contradiction]. cbn [fst snd m_locked m_data].
      assert (Hl1 : m_locked m1 = m_locked m).
      { clear - E. revert m E. induction ids as [|y ids IH]; intros m E; cbn in E; [injection E as <-; auto|].
        destruct (remove_in_place y (m_records m)); [|discriminate]. destruct (remove_from_types y (m_types m)); [|discriminate].
        apply IH in E. exact E. }
      right. intros g d H. split; [congruence|]. eapply delete_data; eauto.
    + apply Q0. intros r Hr. apply recs_of_in in Hr. eapply read_visible; eauto.
    + cbn [andb]. destruct (mem_by_types c m g ts) as [l|] eqn:E; apply Q0; [|contradiction].
      cbn [snd shown]. unfold mem_by_types in E.
      assert (HA : forall t, iter_all (mem_visible m)
                (new_iter (records_by_ids c m (from_gsn g) None true 0 (aget t (m_types m))))).
      { intros t. split; cbn; [|discriminate]. intros r Hr. eapply read_visible; eauto. }
      destruct ts as [|t [|t2 ts]].
      * injection E as <-. contradiction.
      * injection E as <-. intros r Hr. apply recs_of_in in Hr. eapply read_visible; eauto.
      * apply (merge_results_all (mem_visible m)) in E.
        -- rewrite Forall_forall in E. exact E.
        -- apply Forall_map, Forall_forall. intros t' _. apply HA.
    + apply Q0. cbn [snd shown]. unfold mem_by_stream.
      destruct (m_streams m s) as [[|id ids]|]; try contradiction.
      intros r Hr. apply recs_of_in in Hr. eapply read_visible; eauto.
    + destruct (done_at cn 0) eqn:Ed; [apply Q0; contradiction|].
      unfold mem_total. rewrite Ed. apply Q0; contradiction.
Qed.

Lemma mem_book ops : exists B, rising B /\ part_of (map rstamp B) (map estamp (passed ops))
  /\ forall x r, In x (snd (run (mem_step c) mem_init ops)) -> In r (shown x) -> In r B.
Proof.
  destruct (book (mem_step c) (K c) mem_visible m_last mem_step_book ops mem_init [] []) as (B & H1 & H2 & _ & H4).
  - right. apply J_init.
  - constructor.
  - contradiction.
  - intros r [_ (g & d & H & _)]. discriminate.
  - constructor.
  - exists B. auto.
Qed.
End Memory.

(** * LevelDB, with crashes *)
Section Level.
Variable c : codec.
Hypothesis Hc : codec_ok c.

Lemma from_stamps s evs : forall g k, map rstamp (records_from s g k evs) = map estamp evs.
Proof. induction evs as [|e evs IH]; intros g k; cbn [records_from map]; [reflexivity|]. now rewrite IH. Qed.
Lemma from_rising s evs : forall g k, rising (records_from s g k evs).
Proof.
  induction evs as [|e evs IH]; intros g k; cbn [records_from]; [constructor|].
  unfold rising in *. cbn [map]. constructor; [apply IH|]. apply Forall_forall. intros y Hy. apply in_map_iff in Hy.
  destruct Hy as (r & <- & Hr). apply records_from_gsn in Hr. cbn. lia.
Qed.

Lemma read_in L o x r : read_result L o = Some x -> In r (shown x) -> In r (l_recs L).
Proof.
  assert (R : forall l, recs_of (map RRec l) = l) by (induction l; cbn; congruence).
  destruct o as [ex s evs cn|ex s cn|g|g ts|k s|s cn]; cbn [read_result]; try discriminate; intros [= <-]; cbn [shown].
  - rewrite R. intros H. apply filter_In in H. tauto.
  - rewrite R. intros H. apply filter_In in H. tauto.
  - destruct (stream_length s L =? 0); [cbn; tauto|]. rewrite R. intros H. apply filter_In in H. destruct H as [H _].
    apply filter_In in H. tauto.
  - destruct (done_at cn 0); cbn; tauto.
Qed.

Lemma log_step_book L o : let L' := fst (log_exec c L o) in let x := snd (log_exec c L o) in
  l_last L <= l_last L' /\ exists fresh,
    rising fresh /\ (forall r, In r fresh -> l_last L < r_gsn r <= l_last L')
    /\ part_of (map rstamp fresh) (map estamp (batch o))
    /\ (forall r, In r (l_recs L') -> In r (l_recs L) \/ In r fresh)
    /\ (forall r, In r (shown x) -> In r (l_recs L) \/ In r fresh).
Proof.
  cbv zeta.
  assert (Q : forall L' x, l_last L' = l_last L -> (forall r, In r (l_recs L') -> In r (l_recs L)) -> (forall r, In r (shown x) -> In r (l_recs L)) ->
    l_last L <= l_last L' /\ exists fresh,
    rising fresh /\ (forall r, In r fresh -> l_last L < r_gsn r <= l_last L')
    /\ part_of (map rstamp fresh) (map estamp (batch o))
    /\ (forall r, In r (l_recs L') -> In r (l_recs L) \/ In r fresh)
    /\ (forall r, In r (shown x) -> In r (l_recs L) \/ In r fresh)).
  { intros L' x E H1 H2. split; [lia|]. exists []. split; [constructor|]. split; [contradiction|]. split; [constructor|]. auto. }
  assert (Rd : forall x, read_result L o = Some x -> forall r, In r (shown x) -> In r (l_recs L)) by (intros; eapply read_in; eauto).
  destruct o as [ex s evs cn|ex s cn|g|g ts|k s|s cn]; cbn [log_exec].
  - destruct (save_refused c L ex s evs cn); [apply Q; auto; contradiction|]. cbn [fst snd append_log l_last l_recs shown].
    split; [lia|]. exists (appended L s evs). split; [apply from_rising|].
    split; [intros r Hr; apply records_from_gsn in Hr; lia|].
    split; [unfold appended; rewrite from_stamps; apply part_refl|]. split; [|auto].
    intros r Hr. apply in_app_or in Hr. auto.
  - destruct (delete_refused L ex s cn); [apply Q; auto; contradiction|]. apply Q; auto; [|contradiction].
    cbn. intros r Hr. apply filter_In in Hr. tauto.
  - cbn [read_result fst snd]. apply Q; auto. exact (Rd _ eq_refl).
  - cbn [read_result fst snd]. apply Q; auto. exact (Rd _ eq_refl).
  - cbn [read_result fst snd]. apply Q; auto. exact (Rd _ eq_refl).
  - cbn [read_result fst snd]. apply Q; auto. exact (Rd _ eq_refl).
Qed.

Lemma lives_book h : forall st L B past, D c (h_db (s_h st)) L -> Forall clean_call (map fst h) ->
  l_last L + events_in (map fst h) < two64 -> rising B -> (forall r, In r B -> r_gsn r <= l_last L) ->
  (forall r, In r (l_recs L) -> In r B) -> part_of (map rstamp B) (map estamp past) ->
  exists B', rising B' /\ part_of (map rstamp B') (map estamp (past ++ passed (map fst h)))
    /\ (forall r, In r B -> In r B')
    /\ forall x r, In (Some x) (snd (lives c st h)) -> In r (shown x) -> In r B'.
Proof.
  induction h as [|[o w] h IH]; intros st L B past HD Hcl Hsm HB Hl Hv Hp.
  - exists B. cbn. rewrite app_nil_r. split; auto. split; auto. split; auto. contradiction.
  - cbn [map fst passed flat_map] in *. inversion Hcl as [|? ? Ho Hcl']; subst.
    cbn [events_in fold_right] in Hsm. fold (events_in (map fst h)) in Hsm.
    assert (Hadd : l_last L + added o < two64) by lia.
    pose proof (step_any c Hc st L o HD Ho Hadd) as Hst.
    pose proof (log_exec_last c L o) as Hlast.
    destruct (log_step_book L o) as (Hle & fresh & F1 & F2 & F3 & F4 & F5).
    (* the call did nothing *)
    assert (Same : forall st1, D c (h_db (s_h st1)) L ->
      exists B', rising B' /\ part_of (map rstamp B') (map estamp (past ++ batch o ++ passed (map fst h)))
        /\ (forall r, In r B -> In r B')
        /\ forall x r, In (Some x) (snd (lives c st1 h)) -> In r (shown x) -> In r B').
    { intros st1 HD1. rewrite app_assoc. assert (Hs : l_last L + events_in (map fst h) < two64) by lia.
      apply (IH st1 L B (past ++ batch o) HD1 Hcl' Hs HB Hl Hv).
      rewrite map_app. rewrite <- (app_nil_r (map rstamp B)). apply part_app; [exact Hp|constructor]. }
    assert (Next : forall st1, D c (h_db (s_h st1)) (fst (log_exec c L o)) ->
      exists B', rising B' /\ part_of (map rstamp B') (map estamp (past ++ batch o ++ passed (map fst h)))
        /\ (forall r, In r (B ++ fresh) -> In r B')
        /\ forall x r, In (Some x) (snd (lives c st1 h)) -> In r (shown x) -> In r B').
    { intros st1 HD1. rewrite app_assoc. assert (Hs : l_last (fst (log_exec c L o)) + events_in (map fst h) < two64) by lia.
      apply (IH st1 _ (B ++ fresh) (past ++ batch o) HD1 Hcl' Hs).
      - apply rising_app; auto. intros a b Ha Hb. apply Hl in Ha. apply F2 in Hb. lia.
      - intros r Hr. apply in_app_or in Hr. destruct Hr as [Hr|Hr]; [apply Hl in Hr; lia|apply F2 in Hr; lia].
      - intros r Hr. apply in_or_app. destruct (F4 r Hr); auto.
      - rewrite !map_app. now apply part_app. }
    destruct w as [k|]; cbn [lives].
    + assert (HC : D c (h_db (s_h (ldb_crash c st o k))) L \/ D c (h_db (s_h (ldb_crash c st o k))) (fst (log_exec c L o))).
      { destruct (crash_atomic c st o k) as [->| ->]; auto. destruct Hst as [[_ ->]|[_ H]]; auto. }
      destruct HC as [HC|HC].
      * destruct (Same _ HC) as (B' & G1 & G2 & G3 & G4). destruct (lives c (ldb_crash c st o k) h) as [st2 xs]. cbn [snd] in *.
        exists B'. split; auto. split; auto. split; auto. intros x r [H|H]; [discriminate|eauto].
      * destruct (Next _ HC) as (B' & G1 & G2 & G3 & G4). destruct (lives c (ldb_crash c st o k) h) as [st2 xs]. cbn [snd] in *.
        exists B'. split; auto. split; auto. split; [intros r Hr; apply G3, in_or_app; auto|].
        intros x r [H|H]; [discriminate|eauto].
    + destruct (ldb_step c st o) as [st1 x1]. cbn [fst snd] in Hst. destruct Hst as [[-> E]|[-> HD1]].
      * rewrite <- E in HD. destruct (Same _ HD) as (B' & G1 & G2 & G3 & G4). destruct (lives c st1 h) as [st2 xs]. cbn [snd] in *.
        exists B'. split; auto. split; auto. split; auto. intros x r [[= <-]|H]; [contradiction|eauto].
      * destruct (Next _ HD1) as (B' & G1 & G2 & G3 & G4). destruct (lives c st1 h) as [st2 xs]. cbn [snd] in *.
        exists B'. split; auto. split; auto. split; [intros r Hr; apply G3, in_or_app; auto|].
        intros x r [[= <-]|H]; [|eauto]. intros Hr. apply G3, in_or_app. destruct (F5 r Hr); auto.
Qed.

Lemma ldb_book h : Forall clean_call (map fst h) -> events_in (map fst h) < two64 ->
  exists B, rising B /\ part_of (map rstamp B) (map estamp (passed (map fst h)))
  /\ forall x r, In (Some x) (snd (lives c ldb_init h)) -> In r (shown x) -> In r B.
Proof.
  intros Hcl Hsm. destruct (lives_book h ldb_init empty_log [] [] (D_init c) Hcl Hsm) as (B & H1 & H2 & _ & H4); auto.
  - constructor.
  - contradiction.
  - constructor.
  - exists B. auto.
Qed.
End Level.
