(** Proofs about dispatching commands. *)
From Coq Require Import PeanoNat.
From Verif Require Import Base Core CoreProofs SubscriptionProofs Cqrs CqrsSpec.
Open Scope list_scope.

Section Cqrs.
Context {E C S : Type}.
Variable event_stream : E -> string.
Variable command_stream : C -> string.
Variable command_type : C -> string.
Variable apply : S -> E -> S.
Variable decide : S -> C -> list E.
Variable registered : list (list string).
Notation dispatch_ := (dispatch event_stream command_stream command_type apply decide registered).
Notation dispatches_ := (dispatches event_stream command_stream command_type apply decide registered).
Notation read_ := (read event_stream).
Notation events_ := (stream_events event_stream).
Notation route_ := (route command_type registered).
Notation step_thread_ := (step_thread event_stream command_stream command_type apply decide registered).
Notation step_ := (step event_stream command_stream command_type apply decide registered).
Notation run_ := (run event_stream command_stream command_type apply decide registered).

Lemma sub_all {A} (l : list A) : subsequence l l.
Proof. induction l; constructor; auto. Qed.
Lemma sub_in {A} (a b : list A) x : subsequence a b -> In x a -> In x b.
Proof. induction 1; cbn; intuition. Qed.

(** * Saving *)
Lemma save_events_ok (es : list E) : forall fate L, exists new, save_events fate L es = (L ++ new, new) /\ subsequence new es.
Proof.
  induction es as [|e es IH]; intros fate L; cbn [save_events].
  - exists []. rewrite app_nil_r. split; constructor.
  - destruct fate as [|[|] fate].
    + destruct (IH [] (L ++ [e])) as (new & -> & Q). exists (e :: new). rewrite <- app_assoc. split; [reflexivity|now constructor].
    + destruct (IH fate (L ++ [e])) as (new & -> & Q). exists (e :: new). rewrite <- app_assoc. split; [reflexivity|now constructor].
    + destruct (IH fate L) as (new & -> & Q). exists new. split; [reflexivity|now constructor].
Qed.

Lemma save_events_all (es : list E) : forall L, save_events [] L es = (L ++ es, es).
Proof.
  induction es as [|e es IH]; intros L; cbn [save_events]; [now rewrite app_nil_r|].
  rewrite IH, <- app_assoc. reflexivity.
Qed.

(** * One at a time *)

Lemma dispatch_spec c cut fate L insts h st : route_ c = Some h -> nth_error insts h = Some st ->
  exists new, dispatch_ c cut fate (L, insts)
    = ((L ++ new, set_nth h (fold_left apply (read_ cut (command_stream c) L) st) insts), new)
  /\ save_events fate L (decide (fold_left apply (read_ cut (command_stream c) L) st) c) = (L ++ new, new)
  /\ subsequence new (decide (fold_left apply (read_ cut (command_stream c) L) st) c).
Proof.
  intros R N. unfold dispatch. rewrite R, N. set (st' := fold_left _ _ _).
  destruct (save_events_ok (decide st' c) fate L) as (new & Es & Q). rewrite Es. exists new. auto.
Qed.

Lemma dispatches_app ks1 : forall ks2 w, dispatches_ (ks1 ++ ks2) w =
  let (w1, o1) := dispatches_ ks1 w in let (w2, o2) := dispatches_ ks2 w1 in (w2, o1 ++ o2).
Proof.
  induction ks1 as [|k ks1 IH]; intros ks2 w; cbn [app dispatches].
  - now destruct (dispatches_ ks2 w).
  - destruct (dispatch_ _ _ _ w) as [w1 es]. rewrite IH. destruct (dispatches_ ks1 w1) as [w2 o2].
    now destruct (dispatches_ ks2 w2).
Qed.

(** The log only grows. *)
Lemma dispatch_grows c cut fate L insts L' insts' es : dispatch_ c cut fate (L, insts) = ((L', insts'), es) ->
  L' = L ++ es /\ length insts' = length insts.
Proof.
  intros H. unfold dispatch in H. destruct (route_ c) as [h|]; [|injection H as <- <- <-; now rewrite app_nil_r].
  destruct (nth_error insts h) as [st|]; [|injection H as <- <- <-; now rewrite app_nil_r].
  destruct (save_events_ok (decide (fold_left apply (read_ cut (command_stream c) L) st) c) fate L) as (new & Es & Q).
  rewrite Es in H. injection H as <- <- <-. split; [auto|apply set_nth_length].
Qed.

Lemma dispatches_grow ks : forall L insts L' insts' ess, dispatches_ ks (L, insts) = ((L', insts'), ess) ->
  L' = L ++ concat ess /\ length insts' = length insts /\ length ess = length ks.
Proof.
  induction ks as [|k ks IH]; intros L insts L' insts' ess H; cbn [dispatches] in H.
  - injection H as <- <- <-. cbn. now rewrite app_nil_r.
  - destruct (dispatch_ _ _ _ (L, insts)) as [[L1 i1] es] eqn:D. destruct (dispatch_grows _ _ _ _ _ _ _ _ D) as [-> N].
    destruct (dispatches_ ks (L ++ es, i1)) as [[L2 i2] e2] eqn:D2. injection H as <- <- <-.
    destruct (IH _ _ _ _ _ D2) as (-> & N2 & N3). cbn [concat length]. rewrite app_assoc. repeat split; congruence.
Qed.

Lemma events_app s a b : events_ s (a ++ b) = events_ s a ++ events_ s b.
Proof. apply filter_app. Qed.

(** An aggregate that has served one stream is in the state some beginning of that
    stream leads to. *)
Lemma serves_one ks : forall L0 insts L insts' ess h s init,
  reloadable apply init ->
  dispatches_ ks (L0, insts) = ((L, insts'), ess) ->
  (forall k, In k ks -> k_cut k = None) ->
  (forall k, In k ks -> route_ (k_command k) = Some h -> command_stream (k_command k) = s) ->
  (exists before more, nth_error insts h = Some (replay apply init before) /\ events_ s L0 = before ++ more) ->
  exists before more, nth_error insts' h = Some (replay apply init before) /\ events_ s L = before ++ more.
Proof.
  induction ks as [|k ks IH]; intros L0 insts L insts' ess h s init Re H Cu On Inv; cbn [dispatches] in H.
  - now injection H as <- <- <-.
  - destruct (dispatch_ _ _ _ (L0, insts)) as [[L1 i1] es] eqn:D.
    destruct (dispatches_ ks (L1, i1)) as [[L2 i2] e2] eqn:D2. injection H as <- <- <-.
    eapply (IH L1 i1); eauto.
    { intros; apply Cu; now right. } { intros; apply On; auto; now right. }
    destruct Inv as (before & more & N & Ev).
    destruct (dispatch_grows _ _ _ _ _ _ _ _ D) as [-> _]. unfold dispatch in D. rewrite (Cu k (or_introl eq_refl)) in D. cbn [read] in D.
    destruct (route_ (k_command k)) as [h'|] eqn:R.
    2:{ injection D as _ <- _. exists before, (more ++ events_ s es). rewrite events_app, Ev, app_assoc. auto. }
    destruct (nth_error insts h') as [st|] eqn:Nh.
    2:{ injection D as _ <- _. exists before, (more ++ events_ s es). rewrite events_app, Ev, app_assoc. auto. }
    destruct (save_events _ _ _) as [L' sv]. injection D as _ <- _.
    destruct (Nat.eq_dec h' h) as [->|Ne].
    + exists (events_ s L0), (events_ s es). rewrite events_app. split; auto.
      rewrite (nth_set_same h _ st) by auto. f_equal. rewrite (On k (or_introl eq_refl) R).
      rewrite N in Nh. injection Nh as <-. rewrite Ev. apply Re.
    + exists before, (more ++ events_ s es). rewrite events_app, Ev, app_assoc. split; auto.
      now rewrite nth_set_other by auto.
Qed.

(** * Concurrent dispatches *)

Definition saved_so_far (t : thread E C) : list E :=
  match t with TSave _ saved | TDone saved => saved | _ => [] end.
Definition by_thread (i : nat) (L : list (nat * E)) : list E := map snd (filter (fun p => Nat.eqb (fst p) i) L).

Lemma by_thread_app i a b : by_thread i (a ++ b) = by_thread i a ++ by_thread i b.
Proof. unfold by_thread. rewrite filter_app, map_app. reflexivity. Qed.

Lemma step_saved i cut ok t L insts L' insts' t' : step_thread_ i cut ok t L insts = Some (L', insts', t') ->
  exists new, L' = L ++ new /\ (forall p, In p new -> fst p = i) /\ saved_so_far t' = saved_so_far t ++ map snd new.
Proof.
  intros H. destruct t as [c|h c es|h|h es|es saved|saved]; cbn in H.
  - exists []. cbn. rewrite app_nil_r. destruct (route_ c) as [h|]; [destruct (nth_error insts h)|]; injection H as <- <- <-; cbn; repeat split; auto; intros ? [].
  - exists []. cbn. rewrite app_nil_r. destruct es; destruct (nth_error insts h) as [[st p]|]; try discriminate; injection H as <- <- <-; cbn; repeat split; auto; intros ? [].
  - exists []. cbn. rewrite app_nil_r. destruct (nth_error insts h) as [[st p]|]; try discriminate; injection H as <- <- <-; cbn; repeat split; auto; intros ? [].
  - exists []. cbn. rewrite app_nil_r. destruct (nth_error insts h) as [[st p]|]; try discriminate; injection H as <- <- <-; cbn; repeat split; auto; intros ? [].
  - destruct es as [|e es]; [exists []; rewrite app_nil_r; injection H as <- <- <-; cbn; rewrite app_nil_r; repeat split; auto; intros ? []|].
    destruct ok; injection H as <- <- <-.
    + exists [(i, e)]. cbn. repeat split; auto. intros p [<-|[]]. reflexivity.
    + exists []. cbn. rewrite !app_nil_r. repeat split; auto. intros ? [].
  - discriminate.
Qed.

Definition tagged (x : sys E C S) (k : nat) : Prop :=
  forall i t, nth_error (x_threads x) i = Some t -> by_thread i (skipn k (x_log x)) = saved_so_far t.

Lemma run_tagged ls : forall x x' k, run_ x ls = Some x' -> (k <= length (x_log x))%nat -> tagged x k ->
  (forall p, In p (skipn k (x_log x)) -> (fst p < length (x_threads x))%nat) ->
  tagged x' k /\ (exists new, x_log x' = x_log x ++ new)
  /\ (forall p, In p (skipn k (x_log x')) -> (fst p < length (x_threads x'))%nat).
Proof.
  induction ls as [|l ls IH]; cbn [run]; intros x x' k R K T B.
  - injection R as <-. split; auto. split; auto. exists []. now rewrite app_nil_r.
  - destruct (step_ x l) as [x1|] eqn:St; [|discriminate].
    assert (X : (k <= length (x_log x1))%nat /\ tagged x1 k /\ (exists new, x_log x1 = x_log x ++ new)
      /\ (forall p, In p (skipn k (x_log x1)) -> (fst p < length (x_threads x1))%nat)).
    { destruct l as [c|i cut ok]; cbn in St.
      - injection St as <-. cbn. split; auto. split; [|split; [exists []; now rewrite app_nil_r|]].
        + intros i t Hi. cbn in Hi. cbn [x_log]. destruct (Nat.lt_ge_cases i (length (x_threads x))) as [Lt|Ge].
          * rewrite nth_error_app1 in Hi by auto. now apply T.
          * rewrite nth_error_app2 in Hi by auto. destruct (i - length (x_threads x))%nat eqn:Ei; cbn in Hi.
            -- injection Hi as <-. cbn. unfold by_thread.
               assert (forall l, (forall p, In p l -> (fst p < length (x_threads x))%nat) -> filter (fun p : nat * E => Nat.eqb (fst p) i) l = []) as Z.
               { clear -Ge. induction l as [|q l IHl]; intros H; [reflexivity|]. cbn.
                 destruct (Nat.eqb_spec (fst q) i); [specialize (H q (or_introl eq_refl)); lia|]. apply IHl. intros; apply H; now right. }
               rewrite Z; auto.
            -- destruct n; discriminate.
        + intros p Hp. rewrite app_length. cbn. specialize (B p Hp). lia.
      - destruct (nth_error (x_threads x) i) as [t|] eqn:Ht; [|discriminate].
        destruct (step_thread_ i cut ok t (x_log x) (x_insts x)) as [[[L' insts'] t']|] eqn:Sx; [|discriminate].
        injection St as <-. cbn. destruct (step_saved _ _ _ _ _ _ _ _ _ Sx) as (new & -> & Own & Sv).
        assert (SK : skipn k (x_log x ++ new) = skipn k (x_log x) ++ new).
        { rewrite skipn_app. replace (k - length (x_log x))%nat with 0%nat by lia. reflexivity. }
        split; [rewrite app_length; lia|]. split; [|split; [eauto|]].
        + intros j u Hj. cbn in Hj. cbn [x_log]. rewrite SK, by_thread_app.
          destruct (Nat.eq_dec j i) as [->|Ne].
          * rewrite (nth_set_same i _ t) in Hj by auto. injection Hj as <-. rewrite (T i t Ht), Sv. f_equal.
            unfold by_thread. f_equal. clear -Own. induction new as [|q new IHn]; [reflexivity|]. cbn.
            rewrite (Own q (or_introl eq_refl)), Nat.eqb_refl. f_equal. apply IHn. intros; apply Own; now right.
          * rewrite nth_set_other in Hj by auto. rewrite (T j u Hj).
            assert (by_thread j new = []) as ->; [|now rewrite app_nil_r].
            unfold by_thread. clear -Own Ne. induction new as [|q new IHn]; [reflexivity|]. cbn.
            rewrite (Own q (or_introl eq_refl)). destruct (Nat.eqb_spec i j); [congruence|]. apply IHn. intros; apply Own; now right.
        + intros p Hp. rewrite SK in Hp. rewrite set_nth_length. apply in_app_iff in Hp as [Hp|Hp]; [now apply B|].
          rewrite (Own p Hp). apply nth_error_Some. congruence. }
    destruct X as (K1 & T1 & (new1 & E1) & B1). destruct (IH _ _ _ R K1 T1 B1) as (T2 & (new2 & E2) & B2).
    split; auto. split; auto. exists (new1 ++ new2). rewrite E2, E1, app_assoc. reflexivity.
Qed.

(** * A dispatch that runs alone *)

Definition states (insts : list (S * list E)) : list S := map fst insts.

Lemma set_nth_map {A B} (f : A -> B) h (x : A) l : map f (set_nth h x l) = set_nth h (f x) (map f l).
Proof. revert h. induction l as [|a l IH]; intros [|h]; cbn; auto. now rewrite IH. Qed.
Lemma set_nth_same_id {A} h (x : A) l : nth_error l h = Some x -> set_nth h x l = l.
Proof. revert h. induction l as [|a l IH]; intros [|h]; cbn; intros H; try discriminate; [congruence|]. now rewrite IH. Qed.
Lemma set_nth_twice {A} h (x y : A) l : set_nth h x (set_nth h y l) = set_nth h x l.
Proof. revert h. induction l as [|a l IH]; intros [|h]; cbn; auto. now rewrite IH. Qed.
Lemma none_set h st (insts : list (S * list E)) : nothing_pending insts -> nothing_pending (set_nth h (st, []) insts).
Proof.
  intros H. revert h. induction insts as [|[a p] l IH]; intros [|h] s q Hi; cbn in Hi; auto; try contradiction.
  - destruct Hi as [[= <- <-]|Hi]; auto. apply (H s q). now right.
  - destruct Hi as [[= <- <-]|Hi]; [apply (H a p); now left|]. eapply (IH (fun s q K => H s q (or_intror K)) h s q); eauto.
Qed.

(** What is left to be done by a dispatch; [P]: no read and no save fails. *)
Definition rest_of (P : Prop) (t : thread E C) (L : list E) (insts : list (S * list E)) (L' : list E) (insts' : list (S * list E)) (saved : list E) : Prop :=
  match t with
  | TStart c => exists cut fate sts, dispatch_ c cut fate (L, states insts) = ((L', sts), saved)
                /\ states insts' = sts /\ nothing_pending insts' /\ (P -> cut = None /\ fate = [])
  | TLoad h c es => exists fate st, nth_error insts h = Some (st, [])
                /\ save_events fate L (decide (fold_left apply es st) c) = (L', saved)
                /\ insts' = set_nth h (fold_left apply es st, []) insts /\ (P -> fate = [])
  | TTake h => exists fate st p, nth_error insts h = Some (st, p) /\ save_events fate L p = (L', saved)
                /\ insts' = set_nth h (st, []) insts /\ (P -> fate = [])
  | TReset h es => exists fate st p, nth_error insts h = Some (st, p) /\ save_events fate L es = (L', saved)
                /\ insts' = set_nth h (st, []) insts /\ (P -> fate = [])
  | TSave es sv => exists fate new, save_events fate L es = (L', new) /\ saved = sv ++ new /\ insts' = insts /\ (P -> fate = [])
  | TDone sv => L' = L /\ insts' = insts /\ saved = sv
  end.
Definition calm (t : thread E C) (insts : list (S * list E)) : Prop :=
  match t with TStart _ | TLoad _ _ _ => nothing_pending insts | _ => True end.

Lemma rest_step (P : Prop) i cut ok t L insts L1 i1 t1 L' i' saved :
  step_thread_ i cut ok t L insts = Some (L1, i1, t1) -> calm t insts -> (P -> cut = None /\ ok = true) ->
  rest_of P t1 (map snd L1) i1 L' i' saved -> rest_of P t (map snd L) insts L' i' saved.
Proof.
  intros H Ca HP R. destruct t as [c|h c es|h|h es|es sv|sv]; cbn in H.
  - cbn [rest_of]. unfold dispatch. destruct (route_ c) as [h|] eqn:Ro.
    + destruct (nth_error insts h) as [[st p]|] eqn:N.
      * injection H as <- <- <-. cbn [rest_of] in R. destruct R as (fate & st' & N' & Sv & -> & Hf).
        rewrite N in N'. injection N' as <- ->. exists cut, fate. eexists.
        unfold states. rewrite nth_error_map, N. cbn [option_map fst]. rewrite Sv. split; [reflexivity|]. split; [|split].
        -- now rewrite set_nth_map.
        -- now apply none_set.
        -- intros p. split; [apply HP, p|auto].
      * injection H as <- <- <-. cbn [rest_of] in R. destruct R as (-> & -> & ->). exists None, []. eexists.
        unfold states. rewrite nth_error_map, N. cbn. auto.
    + injection H as <- <- <-. cbn [rest_of] in R. destruct R as (-> & -> & ->). exists None, []. eexists. auto.
  - cbn [calm] in Ca. destruct es as [|e es].
    + destruct (nth_error insts h) as [[st p]|] eqn:N; [|discriminate]. injection H as <- <- <-.
      assert (p = []) by (eapply Ca; eapply nth_error_In; eauto). subst p. cbn [app] in R.
      cbn [rest_of] in R |- *. destruct R as (fate & st' & p' & N' & Sv & -> & Hf).
      rewrite (nth_set_same h _ (st, [])) in N' by auto. injection N' as <- <-. exists fate, st. cbn [fold_left].
      rewrite set_nth_twice. auto.
    + destruct (nth_error insts h) as [[st p]|] eqn:N; [|discriminate]. injection H as <- <- <-.
      assert (p = []) by (eapply Ca; eapply nth_error_In; eauto). subst p.
      cbn [rest_of] in R |- *. destruct R as (fate & st' & N' & Sv & -> & Hf).
      rewrite (nth_set_same h _ (st, [])) in N' by auto. injection N' as <-. exists fate, st. cbn [fold_left].
      rewrite set_nth_twice. auto.
  - destruct (nth_error insts h) as [[st p]|] eqn:N; [|discriminate]. injection H as <- <- <-.
    cbn [rest_of] in R |- *. destruct R as (fate & st' & p' & N' & Sv & -> & Hf). rewrite N in N'. injection N' as <- <-.
    exists fate, st, p. auto.
  - destruct (nth_error insts h) as [[st p]|] eqn:N; [|discriminate]. injection H as <- <- <-.
    cbn [rest_of] in R |- *. destruct R as (fate & new & Sv & -> & -> & Hf). exists fate, st, p. auto.
  - destruct es as [|e es].
    + injection H as <- <- <-. cbn [rest_of] in R |- *. destruct R as (-> & -> & ->). exists [], []. cbn. rewrite app_nil_r. auto.
    + destruct ok; injection H as <- <- <-; cbn [rest_of] in R |- *; destruct R as (fate & new & Sv & -> & -> & Hf).
      * rewrite map_app in Sv. cbn in Sv. destruct fate as [|b fate].
        -- exists [], (e :: new). cbn [save_events]. rewrite Sv. rewrite <- app_assoc. auto.
        -- exists (true :: b :: fate), (e :: new). cbn [save_events]. rewrite Sv. rewrite <- app_assoc.
           split; [auto|]. split; [auto|]. split; [auto|]. intros p. specialize (Hf p). discriminate.
      * exists (false :: fate), new. split; [auto|]. split; [auto|]. split; [auto|]. intros p. destruct (HP p). discriminate.
  - discriminate.
Qed.

Lemma calm_step i cut ok t L insts L1 i1 t1 :
  step_thread_ i cut ok t L insts = Some (L1, i1, t1) -> calm t insts -> calm t1 i1.
Proof.
  intros H Ca. destruct t as [c|h c es|h|h es|es sv|sv]; cbn in H.
  - destruct (route_ c) as [h|]; [destruct (nth_error insts h)|]; injection H as <- <- <-; cbn; auto.
  - destruct es; destruct (nth_error insts h) as [[st p]|] eqn:N; try discriminate; injection H as <- <- <-; cbn; auto.
    assert (p = []) by (eapply Ca; eapply nth_error_In; eauto). subst p. now apply none_set.
  - destruct (nth_error insts h) as [[st p]|]; try discriminate; injection H as <- <- <-; cbn; auto.
  - destruct (nth_error insts h) as [[st p]|]; try discriminate; injection H as <- <- <-; cbn; auto.
  - destruct es; [injection H as <- <- <-; exact I|]. destruct ok; injection H as <- <- <-; exact I.
  - discriminate.
Qed.

Lemma run_alone (P : Prop) ls : forall x x' i t saved, run_ x ls = Some x' -> only i ls ->
  (P -> forall l, In l ls -> l = LStep i None true) ->
  nth_error (x_threads x) i = Some t -> calm t (x_insts x) -> nth_error (x_threads x') i = Some (TDone saved) ->
  rest_of P t (map snd (x_log x)) (x_insts x) (map snd (x_log x')) (x_insts x') saved.
Proof.
  induction ls as [|l ls IH]; cbn [run]; intros x x' i t saved R O HP Hi Ca Hd.
  - injection R as <-. rewrite Hi in Hd. injection Hd as ->. cbn. auto.
  - destruct (O l (or_introl eq_refl)) as (cut & ok & ->). cbn in R. rewrite Hi in R.
    destruct (step_thread_ i cut ok t (x_log x) (x_insts x)) as [[[L1 i1] t1]|] eqn:St; [|discriminate].
    eapply rest_step; eauto.
    { intros p. specialize (HP p _ (or_introl eq_refl)). now injection HP. }
    refine (IH (mk_sys L1 i1 (set_nth i t1 (x_threads x))) x' i t1 saved R _ _ _ _ Hd).
    + intros l Hl. apply O. now right.
    + intros p l Hl. apply HP; auto. now right.
    + cbn. eapply nth_set_same; eauto.
    + cbn. eapply calm_step; eauto.
Qed.
End Cqrs.
