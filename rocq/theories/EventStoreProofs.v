From Coq Require Import Sorted PeanoNat.
From Verif Require Import Base Locks LocksSpec Postgres PostgresSpec StoreSpec EventStore EventStoreSpec LocksProofs.

(** ** Lists *)
Lemma seq_shift_by a b : seq a b = map (fun k => (a + k)%nat) (seq 0 b).
Proof.
  assert (H : forall c, map (fun k => (a + k)%nat) (seq c b) = seq (a + c) b).
  { induction b as [|b IH]; intros c; cbn; auto. f_equal. rewrite IH. f_equal. lia. }
  now rewrite H, Nat.add_0_r.
Qed.
Lemma numbers_app n a b : numbers_from n (a + b) = numbers_from n a ++ numbers_from (n + N.of_nat a) b.
Proof.
  unfold numbers_from. rewrite seq_app, map_app. f_equal. cbn [plus]. rewrite (seq_shift_by a b), map_map. apply map_ext. intros k. lia.
Qed.
Lemma numbers_cons n a : numbers_from n (S a) = n :: numbers_from (n + 1) a.
Proof. change (S a) with (1 + a)%nat. rewrite numbers_app. cbn. now rewrite N.add_0_r. Qed.

Lemma sorted_app {A} (R : A -> A -> Prop) l l' : StronglySorted R l -> StronglySorted R l' ->
  (forall x y, In x l -> In y l' -> R x y) -> StronglySorted R (l ++ l').
Proof.
  induction l as [|a l IH]; intros H1 H2 H; cbn; auto. inversion H1 as [|? ? Ha Hf]; subst. constructor.
  - apply IH; auto. intros x y Hx. apply H. now right.
  - apply Forall_forall. intros y Hy. apply in_app_or in Hy as [Hy|Hy].
    + rewrite Forall_forall in Hf. auto.
    + apply H; auto. now left.
Qed.
Lemma sorted_filter {A} (R : A -> A -> Prop) f l : StronglySorted R l -> StronglySorted R (filter f l).
Proof.
  induction l as [|a l IH]; intros H; cbn; [constructor|]. inversion H as [|? ? Ha Hf]; subst.
  destruct (f a); auto. constructor; auto. apply Forall_forall. intros y Hy. apply filter_In in Hy as [Hy _]. rewrite Forall_forall in Hf. auto.
Qed.
Lemma sorted_map {A B} (R : B -> B -> Prop) (f : A -> B) l : StronglySorted R (map f l) <-> StronglySorted (fun x y => R (f x) (f y)) l.
Proof.
  induction l as [|a l IH]; cbn; [split; constructor|].
  split; intros H; inversion H as [|? ? Ha Hf]; subst; (constructor; [tauto|]).
  - now apply Forall_map.
  - now apply Forall_map.
Qed.
Lemma last_fold {A} (f : A -> N) l x d : fold_left (fun _ e => f e) (l ++ [x]) d = f x.
Proof. now rewrite fold_left_app. Qed.

Lemma memb_cons x y l : memb x (y :: l) = String.eqb x y || memb x l.
Proof. reflexivity. Qed.

Section Proofs.
Variable j : jlib.
Variable prefix : option string.
Variable recdel : bool.
Notation sname := (server_name prefix).

Lemma events_app sn a b : events_of sn (a ++ b) = events_of sn a ++ events_of sn b.
Proof. apply filter_app. Qed.
Lemma events_same sn l : Forall (fun e => en_stream e = sn) l -> events_of sn l = l.
Proof. induction 1 as [|e l E _ IH]; auto. unfold events_of in *. cbn. now rewrite E, String.eqb_refl, IH. Qed.
Lemma events_other sn sn' l : sn <> sn' -> Forall (fun e => en_stream e = sn) l -> events_of sn' l = [].
Proof. intros N. induction 1 as [|e l E _ IH]; auto. unfold events_of in *. cbn. subst. apply String.eqb_neq in N. now rewrite N. Qed.

(** What one append adds to the log. *)
Record grows (sn : string) (log new : list entry) : Prop := {
  gr_stream : Forall (fun e => en_stream e = sn) new;
  gr_num : map en_num new = numbers_from (revisions sn log) (length new);
  gr_sorted : StronglySorted N.lt (map en_commit new);
  gr_above : Forall (fun e => last_commit log < en_commit e) new
}.

Lemma place_fresh sn rs : forall n c gaps,
  Forall (fun e => en_stream e = sn) (place sn n c gaps rs)
  /\ map en_num (place sn n c gaps rs) = numbers_from n (length rs)
  /\ StronglySorted N.lt (map en_commit (place sn n c gaps rs))
  /\ Forall (fun e => c < en_commit e) (place sn n c gaps rs)
  /\ length (place sn n c gaps rs) = length rs.
Proof.
  induction rs as [|r rs IH]; intros n c gaps.
  - cbn. repeat split; constructor.
  - cbn [place length]. set (c' := c + 1 + hd 0 gaps). destruct (IH (n + 1) c' (tl gaps)) as (H1 & H2 & H3 & H4 & H5).
    rewrite numbers_cons. cbn [map length en_num en_commit]. repeat split.
    + now constructor.
    + now rewrite H2.
    + constructor; auto. now apply Forall_map.
    + constructor; [cbn; lia|]. eapply Forall_impl; [|exact H4]. cbn. intros; lia.
    + now rewrite H5.
Qed.
Lemma place_grows sn gaps rs log : grows sn log (place sn (revisions sn log) (last_commit log) gaps rs).
Proof. destruct (place_fresh sn rs (revisions sn log) (last_commit log) gaps) as (A & B & C & D & E). split; auto. now rewrite E. Qed.
Lemma place_rows s evs rs : Forall2 (row_for j s) evs rs -> forall sn n c gaps, Forall2 (entry_for j s) evs (place sn n c gaps rs).
Proof.
  induction 1 as [|e r evs rs H F IH]; intros sn n c gaps; cbn; constructor; auto. split.
  - cbn. now destruct H as (_ & _ & _ & _ & _ & E & _).
  - exists r. auto.
Qed.
Lemma propose_rows s evs : forall t i rs, propose j s t i evs = inr rs -> Forall2 (row_for j s) evs rs.
Proof.
  induction evs as [|e evs IH]; intros t i rs; cbn [propose].
  - intros [= <-]. constructor.
  - destruct (_ && _)%bool; [discriminate|]. destruct (_ && _)%bool; [discriminate|].
    destruct (j_meta j e) eqn:Em; [|discriminate]. destruct (j_data j e) eqn:Ed; [|discriminate].
    destruct (propose _ _ _ _ evs) eqn:E; [discriminate|]. intros [= <-]. constructor; eauto. repeat split; auto.
Qed.

(** ** Reads *)
Lemma record_from_nums e r : record_from j e = Some r -> r_gsn r = en_commit e /\ r_ssn r = en_num e + 1.
Proof. unfold record_from. destruct (en_rec e); [|discriminate]. destruct (j_decode _ _ _); [|discriminate]. intros [= <-]. auto. Qed.

Lemma stream_loop_in s n es : forall t r, In (RRec r) (stream_loop j prefix s n t es) ->
  r_stream r = s /\ n <= r_ssn r /\ exists e, In e es /\ record_from j e = Some r.
Proof.
  induction es as [|e es IH]; intros t r; cbn [stream_loop].
  - destruct t; cbn; [intros [H|[]]; discriminate|tauto].
  - assert (K : forall t, In (RRec r) (stream_loop j prefix s n t es) -> r_stream r = s /\ n <= r_ssn r /\ exists e0, In e0 (e :: es) /\ record_from j e0 = Some r).
    { intros t' H. apply IH in H as (A & B & e0 & C & D). repeat split; auto. exists e0. split; auto. now right. }
    destruct (internal e); [apply K|]. destruct (negb (current prefix e)); [apply K|].
    destruct (record_from j e) as [r'|] eqn:E; [|cbn; intros [H|[]]; discriminate].
    destruct (String.eqb_spec (r_stream r') s) as [Es|]; cbn [negb]; [|apply K]. destruct (N.ltb_spec (r_ssn r') n); [apply K|].
    intros [[= <-]|H']; [|eauto]. repeat split; auto. exists e. split; [now left|auto].
Qed.
Lemma stream_loop_sorted s n es : StronglySorted N.lt (map en_num es) -> forall t,
  increasing r_ssn (recs_of (stream_loop j prefix s n t es)).
Proof.
  induction es as [|e es IH]; intros H t; cbn [stream_loop]; [destruct t; constructor|]. cbn in H. inversion H as [|? ? Hs Hf]; subst. specialize (IH Hs).
  destruct (internal e); auto. destruct (negb (current prefix e)); auto.
  destruct (record_from j e) as [r'|] eqn:E; [|constructor].
  destruct (negb _); auto. destruct (r_ssn r' <? n); auto. cbn [recs_of]. constructor; [apply IH|].
  apply Forall_forall. intros r Hr. assert (In (RRec r) (stream_loop j prefix s n (S t) es)) as Hi.
  { clear -Hr. induction (stream_loop j prefix s n (S t) es) as [|[x|x] l IH]; cbn in *; auto. destruct Hr as [->|Hr]; auto. }
  apply stream_loop_in in Hi as (_ & _ & e0 & He & Er). apply record_from_nums in Er as [_ ->]. apply record_from_nums in E as [_ ->].
  rewrite Forall_map in Hf. rewrite Forall_forall in Hf. specialize (Hf _ He). cbn in Hf. lia.
Qed.
Lemma all_loop_in del es : forall r, In (RRec r) (all_loop j prefix recdel del es) ->
  exists e, In e es /\ record_from j e = Some r /\ (recdel = true -> memb (en_stream e) del = false).
Proof.
  induction es as [|e es IH]; intros r; cbn [all_loop]; [intros []|].
  assert (K : In (RRec r) (all_loop j prefix recdel del es) -> exists e0, In e0 (e :: es) /\ record_from j e0 = Some r /\ (recdel = true -> memb (en_stream e0) del = false)).
  { intros H. apply IH in H as (e0 & C & D). exists e0. split; auto. now right. }
  destruct (internal e); [apply K|]. destruct (negb (current prefix e)); [apply K|].
  destruct (recdel && memb (en_stream e) del)%bool eqn:Ed; [apply K|].
  destruct (record_from j e) as [r'|] eqn:E; [|cbn; intros [H|[]]; discriminate].
  intros [[= <-]|H]; [|auto]. exists e. split; [now left|]. split; auto. intros ->. exact Ed.
Qed.
Lemma types_loop_in ts g del es : forall r, In (RRec r) (types_loop j prefix recdel ts g del es) ->
  (exists e, In e es /\ record_from j e = Some r /\ (recdel = true -> memb (en_stream e) del = false)) /\ memb (r_atype r) ts = true /\ g <= r_gsn r.
Proof.
  induction es as [|e es IH]; intros r; cbn [types_loop]; [intros []|].
  assert (K : In (RRec r) (types_loop j prefix recdel ts g del es) -> (exists e0, In e0 (e :: es) /\ record_from j e0 = Some r /\ (recdel = true -> memb (en_stream e0) del = false)) /\ memb (r_atype r) ts = true /\ g <= r_gsn r).
  { intros H. apply IH in H as ((e0 & C & D) & F). split; auto. exists e0. split; auto. now right. }
  destruct (internal e); [apply K|]. destruct (negb (current prefix e)); [apply K|].
  destruct (recdel && memb (en_stream e) del)%bool eqn:Ed; [apply K|].
  destruct (record_from j e) as [r'|] eqn:E; [|cbn; intros [H|[]]; discriminate].
  destruct (memb (r_atype r') ts) eqn:Et; cbn [negb]; [|apply K]. destruct (N.ltb_spec (r_gsn r') g); [apply K|].
  intros [[= <-]|H']; [|auto]. split; [exists e; split; [now left|]; split; auto; intros ->; exact Ed|auto].
Qed.
Lemma all_loop_sorted del es : StronglySorted N.lt (map en_commit es) -> increasing r_gsn (recs_of (all_loop j prefix recdel del es)).
Proof.
  induction es as [|e es IH]; intros H; cbn [all_loop]; [constructor|]. cbn in H. inversion H as [|? ? Hs Hf]; subst. specialize (IH Hs).
  destruct (internal e); auto. destruct (negb (current prefix e)); auto. destruct (recdel && _)%bool; auto.
  destruct (record_from j e) as [r'|] eqn:E; [|constructor]. cbn [recs_of]. constructor; auto.
  apply Forall_forall. intros r Hr. assert (In (RRec r) (all_loop j prefix recdel del es)) as Hi.
  { clear -Hr. induction (all_loop j prefix recdel del es) as [|[x|x] l IH]; cbn in *; auto. destruct Hr as [->|Hr]; auto. }
  apply all_loop_in in Hi as (e0 & He & Er & _). apply record_from_nums in Er as [-> _]. apply record_from_nums in E as [-> _].
  rewrite Forall_map in Hf. rewrite Forall_forall in Hf. apply (Hf _ He).
Qed.
Lemma types_loop_sorted ts g del es : StronglySorted N.lt (map en_commit es) -> increasing r_gsn (recs_of (types_loop j prefix recdel ts g del es)).
Proof.
  induction es as [|e es IH]; intros H; cbn [types_loop]; [constructor|]. cbn in H. inversion H as [|? ? Hs Hf]; subst. specialize (IH Hs).
  destruct (internal e); auto. destruct (negb (current prefix e)); auto. destruct (recdel && _)%bool; auto.
  destruct (record_from j e) as [r'|] eqn:E; [|constructor]. destruct (negb _); auto. destruct (r_gsn r' <? g); auto.
  cbn [recs_of]. constructor; auto.
  apply Forall_forall. intros r Hr. assert (In (RRec r) (types_loop j prefix recdel ts g del es)) as Hi.
  { clear -Hr. induction (types_loop j prefix recdel ts g del es) as [|[x|x] l IH]; cbn in *; auto. destruct Hr as [->|Hr]; auto. }
  apply types_loop_in in Hi as ((e0 & He & Er & _) & _). apply record_from_nums in Er as [-> _]. apply record_from_nums in E as [-> _].
  rewrite Forall_map in Hf. rewrite Forall_forall in Hf. apply (Hf _ He).
Qed.
Lemma in_recs r l : In r (recs_of l) -> In (RRec r) l.
Proof. induction l as [|[x|x] l IH]; cbn; auto. intros [->|H]; auto. Qed.
Lemma recs_cut n : forall l, exists l', recs_of l = recs_of (cut n l) ++ l'.
Proof.
  induction n as [|n IH]; intros [|[r|e] l]; cbn; eauto. destruct (IH l) as (l' & ->). eauto.
Qed.
Lemma sorted_prefix {A} (R : A -> A -> Prop) l l' : StronglySorted R (l ++ l') -> StronglySorted R l.
Proof.
  induction l as [|a l IH]; cbn; intros H; [constructor|]. inversion H as [|? ? Ha Hf]; subst. constructor; auto.
  apply Forall_forall. rewrite Forall_forall in Hf. intros x Hx. apply Hf, in_or_app. now left.
Qed.

(** What an answer to a read may contain. *)
Definition good_read (o : op) (l : list record) : Prop :=
  match o with
  | OpEvents g => increasing r_gsn l /\ Forall (fun r => g <= r_gsn r) l
  | OpByTypes g ts => increasing r_gsn l /\ Forall (fun r => g <= r_gsn r /\ In (r_atype r) ts) l
  | OpByStream n s => increasing r_ssn l /\ Forall (fun r => n <= r_ssn r /\ r_stream r = s) l
  | _ => True
  end.
Lemma good_prefix o l l' : good_read o (l ++ l') -> good_read o l.
Proof.
  destruct o; cbn; auto; intros [A B]; (split; [eapply sorted_prefix; exact A|apply Forall_app in B; tauto]).
Qed.
Lemma memb_In x l : memb x l = true <-> In x l.
Proof.
  unfold memb. rewrite existsb_exists. split; [intros (y & H & E); apply String.eqb_eq in E as ->; auto|].
  intros H. exists x. split; auto. apply String.eqb_refl.
Qed.

Definition numbered (log : list entry) : Prop :=
  forall sn, map en_num (events_of sn log) = numbers_from 0 (length (events_of sn log)).
Lemma numbers_sorted n len : StronglySorted N.lt (numbers_from n len).
Proof.
  revert n. induction len as [|len IH]; intros n; [constructor|]. rewrite numbers_cons. constructor; auto.
  apply Forall_forall. intros x Hx. apply in_map_iff in Hx as (k & <- & _). lia.
Qed.
Lemma good_stream log tomb s n : numbered log -> good_read (OpByStream n s) (recs_of (read_stream j prefix log tomb s n)).
Proof.
  intros H. unfold read_stream. destruct (memb _ tomb); [split; constructor|]. destruct (events_of (sname s) log) as [|e0 es0] eqn:E; [split; constructor|].
  rewrite <- E. set (es := filter _ _). assert (Hs : StronglySorted N.lt (map en_num es)).
  { apply sorted_map, sorted_filter. apply (sorted_map N.lt en_num). rewrite (H (sname s)). apply numbers_sorted. }
  split; [now apply stream_loop_sorted|]. apply Forall_forall. intros r Hr. apply in_recs, stream_loop_in in Hr. tauto.
Qed.
Lemma good_all log del g : StronglySorted N.lt (map en_commit log) -> good_read (OpEvents g) (recs_of (read_all j prefix recdel log del g)).
Proof.
  intros H. unfold read_all. split.
  - apply all_loop_sorted. apply sorted_map, sorted_filter. now apply sorted_map.
  - apply Forall_forall. intros r Hr. apply in_recs, all_loop_in in Hr as (e & He & Er & _). apply filter_In in He as [_ He].
    apply record_from_nums in Er as [-> _]. now apply N.leb_le.
Qed.
Lemma good_types log del g ts : StronglySorted N.lt (map en_commit log) -> good_read (OpByTypes g ts) (recs_of (read_types j prefix recdel log del g ts)).
Proof.
  intros H. unfold read_types. split.
  - apply types_loop_sorted. apply sorted_map, sorted_filter. now apply sorted_map.
  - apply Forall_forall. intros r Hr. apply in_recs, types_loop_in in Hr as (_ & Ht & Hg). split; auto. now apply memb_In.
Qed.
Lemma good_cut o n l : good_read o (recs_of l) -> good_read o (recs_of (cut n l)).
Proof. intros H. destruct (recs_cut n l) as (l' & E). rewrite E in H. eapply good_prefix; exact H. Qed.

(** ** The invariant *)
Definition placed (log : list entry) (ex : option N) (s : string) (evs : list event) (n : N) : Prop :=
  exists l1 mine l2, log = l1 ++ mine ++ l2
    /\ Forall (fun e => en_stream e = sname s) mine /\ Forall2 (entry_for j s) evs mine
    /\ n = revisions (sname s) l1 + N.of_nat (length evs)
    /\ (forall x, ex = Some x -> 0 < x -> revisions (sname s) l1 = x) /\ evs <> [].

Definition answer_ok (log : list entry) (tomb : list string) (o : op) (x : out) : Prop :=
  match x with
  | OutSaved n _ => exists ex s evs cn, o = OpSave ex s evs cn /\ placed log ex s evs n
  | OutDeleted => exists ex s cn, o = OpDelete ex s cn /\ memb (sname s) tomb = true /\ revisions (sname s) log = zero_based ex + 1
  | OutResults l => good_read o (recs_of l)
  | _ => True
  end.
Definition pc_ok (log : list entry) (tomb : list string) (o : op) (p : espc) : Prop :=
  match p with
  | XAppend rs => exists ex s evs cn, o = OpSave ex s evs cn /\ evs <> [] /\ Forall2 (row_for j s) evs rs
  | XMark => exists ex s cn, o = OpDelete ex s cn /\ memb (sname s) tomb = true /\ revisions (sname s) log = zero_based ex + 1
  | _ => True
  end.

Record good (k : esconf) : Prop := {
  i_num : numbered (x_log k);
  i_com : StronglySorted N.lt (map en_commit (x_log k));
  i_ops : forall i c, nth_error (x_calls k) i = Some c -> In (Inv i (es_op c)) (x_hist k);
  i_inv : forall i o, In (Inv i o) (x_hist k) -> exists c, nth_error (x_calls k) i = Some c /\ es_op c = o;
  i_ret : forall i x, In (Ret i x) (x_hist k) -> exists c, nth_error (x_calls k) i = Some c /\ answer_ok (x_log k) (x_tomb k) (es_op c) x;
  i_pc : forall i c, nth_error (x_calls k) i = Some c -> pc_ok (x_log k) (x_tomb k) (es_op c) (es_pc c)
}.

Lemma answer_grow log tomb sn new o x : memb sn tomb = false -> grows sn log new -> answer_ok log tomb o x -> answer_ok (log ++ new) tomb o x.
Proof.
  intros Ht Hg. destruct x; cbn; auto.
  - intros (ex & s & evs & cn & -> & l1 & mine & l2 & -> & H). exists ex, s, evs, cn. split; auto. exists l1, mine, (l2 ++ new). now rewrite <- !app_assoc.
  - intros (ex & s & cn & -> & Hm & Hr). exists ex, s, cn. repeat split; auto. unfold revisions. rewrite events_app.
    rewrite (events_other sn (sname s) new); [now rewrite app_nil_r|intros ->; congruence|apply Hg].
Qed.
Lemma pc_grow log tomb sn new o p : memb sn tomb = false -> grows sn log new -> pc_ok log tomb o p -> pc_ok (log ++ new) tomb o p.
Proof.
  intros Ht Hg. destruct p; cbn; auto.
  intros (ex & s & cn & -> & Hm & Hr). exists ex, s, cn. repeat split; auto. unfold revisions. rewrite events_app.
  rewrite (events_other sn (sname s) new); [now rewrite app_nil_r|intros ->; congruence|apply Hg].
Qed.
Lemma memb_more x y l : memb x l = true -> memb x (y :: l) = true.
Proof. intros H. rewrite memb_cons, H. apply orb_true_r. Qed.

Lemma commit_max log : StronglySorted N.lt (map en_commit log) -> Forall (fun e => en_commit e <= last_commit log) log.
Proof.
  induction log as [|x log IH] using rev_ind; intros H; [constructor|]. unfold last_commit in *. rewrite last_fold.
  rewrite map_app in H. apply Forall_app. split; [|repeat constructor; lia]. clear IH. apply Forall_forall. intros e He.
  apply (in_map en_commit) in He. revert H He. induction (map en_commit log) as [|a l IHl]; [intros _ []|]. cbn. intros H [<-|Hi].
  - inversion H as [|? ? _ Hf]; subst. rewrite Forall_forall in Hf. specialize (Hf (en_commit x)). apply N.lt_le_incl, Hf, in_or_app. right. now left.
  - apply IHl; auto. now inversion H.
Qed.

Lemma good_start : good es_start.
Proof. split; cbn; try (intros [|?] ? [=]); try tauto; try constructor. Qed.

(** The pieces of a step. *)
Lemma good_log k sn new : good k -> memb sn (x_tomb k) = false -> grows sn (x_log k) new -> good (set_log (x_log k ++ new) k).
Proof.
  intros [A B C D E F] Ht Hg. split; cbn; auto.
  - intros sn'. destruct (String.eqb_spec sn sn') as [->|N].
    + rewrite events_app, (events_same sn' new) by apply Hg. rewrite map_app, app_length, numbers_app, A. now rewrite (gr_num _ _ _ Hg).
    + rewrite events_app, (events_other sn sn' new), app_nil_r by (auto; apply Hg). apply A.
  - rewrite map_app. apply sorted_app; auto; [apply Hg|]. intros x y Hx Hy.
    apply in_map_iff in Hx as (ex & <- & Hx). apply in_map_iff in Hy as (ey & <- & Hy).
    pose proof (commit_max _ B) as Hc. rewrite Forall_forall in Hc. specialize (Hc _ Hx).
    pose proof (gr_above _ _ _ Hg) as Ha. rewrite Forall_forall in Ha. specialize (Ha _ Hy). lia.
  - intros i x Hi. destruct (E i x Hi) as (c & Hc & Ho). exists c. split; auto. eapply answer_grow; eauto.
  - intros i c Hc. eapply pc_grow; eauto.
Qed.
Lemma good_tomb k sn : good k -> good (add_tomb sn k).
Proof.
  intros [A B C D E F]. split; cbn; auto.
  - intros i x Hi. destruct (E i x Hi) as (c & Hc & Ho). exists c. split; auto. destruct x; cbn in *; auto.
    destruct Ho as (ex & s & cn & H1 & H2 & H3). exists ex, s, cn. repeat split; auto. now apply memb_more.
  - intros i c Hc. specialize (F i c Hc). destruct (es_pc c); cbn in *; auto.
    destruct F as (ex & s & cn & H1 & H2 & H3). exists ex, s, cn. repeat split; auto. now apply memb_more.
Qed.
Lemma good_del k sn : good k -> good (add_del sn k).
Proof. intros [A B C D E F]. split; cbn; auto. Qed.
Lemma good_call k i c p : good k -> nth_error (x_calls k) i = Some c -> pc_ok (x_log k) (x_tomb k) (es_op c) p -> good (set_xcall i (es_op c) p k).
Proof.
  intros [A B C D E F] Hn Hp. split; cbn; auto.
  - intros i' c'. rewrite (nth_upd _ _ _ _ _ Hn). destruct (Nat.eqb_spec i' i) as [->|]; [intros [= <-]; cbn; eauto|eauto].
  - intros i' o Hi. destruct (D i' o Hi) as (c' & Hc & Ho). rewrite (nth_upd _ _ _ _ _ Hn). destruct (Nat.eqb_spec i' i) as [->|]; [|eauto].
    eexists. split; [reflexivity|]. cbn. congruence.
  - intros i' x Hi. destruct (E i' x Hi) as (c' & Hc & Ho). rewrite (nth_upd _ _ _ _ _ Hn). destruct (Nat.eqb_spec i' i) as [->|]; [|eauto].
    eexists. split; [reflexivity|]. cbn. congruence.
  - intros i' c'. rewrite (nth_upd _ _ _ _ _ Hn). destruct (Nat.eqb_spec i' i) as [->|]; [intros [= <-]; cbn; eauto|eauto].
Qed.
Lemma good_reply k i c x : good k -> nth_error (x_calls k) i = Some c -> answer_ok (x_log k) (x_tomb k) (es_op c) x -> good (xreply i (es_op c) x k).
Proof.
  intros G Hn Hx. destruct (good_call k i c XDone G Hn Logic.I) as [A B C D E F]. cbn in *. split; cbn; auto.
  - intros i' c' H. apply in_or_app. left. eauto.
  - intros i' o Hi. apply in_app_or in Hi as [Hi|[Hi|[]]]; [eauto|discriminate].
  - intros i' x' Hi. apply in_app_or in Hi as [Hi|[[= -> ->]|[]]]; [eauto|]. eexists. rewrite (nth_upd _ _ _ _ _ Hn), Nat.eqb_refl. split; [reflexivity|]. auto.
Qed.
Lemma good_check k i c ex s evs cn n : good k -> nth_error (x_calls k) i = Some c -> es_op c = OpSave ex s evs cn -> evs <> [] ->
  good (after_check j i (es_op c) ex s evs n k).
Proof.
  intros G Hn Ho He. unfold after_check. destruct (match ex with Some _ => _ | None => _ end); [apply good_reply; cbn; auto|].
  destruct (propose _ _ _ _ _) eqn:E; [apply good_reply; cbn; auto|]. apply good_call; auto. cbn. exists ex, s, evs, cn. repeat split; auto. eapply propose_rows; eauto.
Qed.

Lemma good_step k lb k' : good k -> xstep j prefix recdel k lb = Some k' -> good k'.
Proof.
  intros G. destruct lb as [o|i gaps|i n|i gaps| | |sn ty r gap|]; cbn [xstep].
  - intros [= <-]. destruct G as [A B C D E F]. split; cbn; auto.
    + intros i c Hc. apply in_or_app. destruct (Nat.ltb_spec i (length (x_calls k))) as [Hl|Hl].
      * rewrite nth_error_app1 in Hc by auto. left; auto.
      * rewrite nth_error_app2 in Hc by auto. destruct (i - length (x_calls k))%nat as [|[|?]] eqn:Ei; cbn in Hc; try discriminate. injection Hc as <-.
        right. left. cbn. f_equal. lia.
    + intros i o' Hi. apply in_app_or in Hi as [Hi|[[= <- <-]|[]]].
      * destruct (D _ _ Hi) as (c & Hc & Ho). exists c. split; auto. rewrite nth_error_app1; auto. apply nth_error_Some. congruence.
      * eexists. rewrite nth_error_app2, Nat.sub_diag by auto. split; [reflexivity|reflexivity].
    + intros i x Hi. apply in_app_or in Hi as [Hi|[Hi|[]]]; [|discriminate].
      destruct (E _ _ Hi) as (c & Hc & Ho). exists c. split; auto. rewrite nth_error_app1; auto. apply nth_error_Some. congruence.
    + intros i c Hc. destruct (Nat.ltb_spec i (length (x_calls k))) as [Hl|Hl].
      * rewrite nth_error_app1 in Hc by auto. exact (F i c Hc).
      * rewrite nth_error_app2 in Hc by auto. destruct (i - length (x_calls k))%nat as [|[|?]]; cbn in Hc; try discriminate. injection Hc as <-. exact Logic.I.
  - destruct (nth_error (x_calls k) i) as [c|] eqn:Hn; [|discriminate]. pose proof (i_pc k G i c Hn) as Hp. unfold es_step.
    destruct (es_pc c) as [|rs| | |] eqn:Ep; destruct (es_op c) as [ex s evs cn|ex s cn|g|g ts|m s|s cn] eqn:Eo; try discriminate.
    + destruct evs as [|e evs]; intros [= <-]; rewrite <- Eo.
      * apply good_reply; cbn; auto.
      * eapply good_check; eauto. discriminate.
    + rewrite <- Eo. destruct (done_at cn 0); [intros [= <-]; now apply good_reply|]. destruct (memb (sname s) (x_tomb k)) eqn:Et; [intros [= <-]; now apply good_reply|].
      destruct (N.eqb_spec (revisions (sname s) (x_log k)) (zero_based ex + 1)) as [Er|].
      * destruct recdel; intros [= <-].
        -- apply good_call; auto. now apply good_tomb. cbn. rewrite Eo. exists ex, s, cn. rewrite String.eqb_refl. auto.
        -- apply good_reply; auto. now apply good_tomb. cbn. rewrite Eo. exists ex, s, cn. rewrite String.eqb_refl. auto.
      * intros [= <-]. now apply good_call.
    + rewrite <- Eo. intros [= <-]. apply good_reply; auto. cbn [answer_ok]. rewrite Eo. apply good_all, G.
    + rewrite <- Eo. intros [= <-]. apply good_reply; auto. cbn [answer_ok]. rewrite Eo. apply good_types, G.
    + rewrite <- Eo. intros [= <-]. apply good_reply; auto. cbn [answer_ok]. rewrite Eo. apply good_stream, G.
    + rewrite <- Eo. intros [= <-]. apply good_reply; auto. destruct (done_at cn 0); cbn; auto.
    + rewrite <- Eo. destruct (done_at cn 1); [intros [= <-]; now apply good_reply|]. destruct (memb (sname s) (x_tomb k)) eqn:Et; [intros [= <-]; now apply good_reply|].
      cbn in Hp. destruct Hp as (ex' & s' & evs' & cn' & [= <- <- <- <-] & He & HF).
      assert (Hl : length evs = length rs) by (clear -HF; induction HF; cbn; auto).
      destruct (append_accepted prefix k ex s) eqn:Ea; intros [= <-]; [|now apply good_reply].
      apply good_reply; auto; [apply (good_log k (sname s)); auto; apply place_grows|]. cbn [answer_ok x_log x_tomb set_log]. rewrite Eo. exists ex, s, evs, cn. split; auto.
      exists (x_log k), (place (sname s) (revisions (sname s) (x_log k)) (last_commit (x_log k)) gaps rs), [].
      pose proof (place_grows (sname s) gaps rs (x_log k)) as Hg. rewrite app_nil_r. split; [reflexivity|]. split; [apply Hg|]. split; [now apply place_rows|].
      assert (length evs <> 0)%nat by (destruct evs; [congruence|discriminate]). split; [unfold one_based; lia|].
      split; [|exact He]. intros x -> Hx. unfold append_accepted in Ea. apply N.ltb_lt in Hx as Hx'. rewrite Hx' in Ea. apply N.eqb_eq in Ea. rewrite Ea. unfold zero_based.
      destruct (N.ltb_spec x 1); lia.
    + rewrite <- Eo. destruct (seq_of _ _); intros [= <-]; apply good_reply; cbn; auto.
    + rewrite <- Eo. intros [= <-]. apply good_reply; auto. now apply good_del. cbn [answer_ok]. rewrite Eo. exact Hp.
  - destruct (nth_error (x_calls k) i) as [c|] eqn:Hn; [|discriminate]. unfold es_fail.
    destruct (es_pc c) as [|rs| | |] eqn:Ep; destruct (es_op c) as [ex s evs cn|ex s cn|g|g ts|m s|s cn] eqn:Eo; try discriminate.
    + destruct ex as [x|]; [|discriminate]. destruct evs as [|e evs]; [discriminate|]. intros [= <-]. rewrite <- Eo. eapply good_check; eauto. discriminate.
    + rewrite <- Eo. intros [= <-]. now apply good_reply.
    + rewrite <- Eo. intros [= <-]. apply good_reply; auto. cbn [answer_ok]. rewrite Eo. apply good_cut, good_all, G.
    + rewrite <- Eo. intros [= <-]. apply good_reply; auto. cbn [answer_ok]. rewrite Eo. apply good_cut, good_types, G.
    + rewrite <- Eo. intros [= <-]. apply good_reply; auto. cbn [answer_ok]. rewrite Eo. apply good_cut, good_stream, G.
    + rewrite <- Eo. intros [= <-]. now apply good_reply.
    + rewrite <- Eo. intros [= <-]. now apply good_reply.
    + rewrite <- Eo. intros [= <-]. now apply good_reply.
  - destruct (nth_error (x_calls k) i) as [c|] eqn:Hn; [|discriminate]. unfold es_lost.
    destruct (es_pc c) as [|rs| | |] eqn:Ep; destruct (es_op c) as [ex s evs cn|ex s cn|g|g ts|m s|s cn] eqn:Eo; try discriminate.
    + destruct (memb (sname s) (x_tomb k)) eqn:Et; [discriminate|]. destruct (_ =? _); [|discriminate]. rewrite <- Eo. intros [= <-]. apply good_reply; cbn; auto. now apply good_tomb.
    + destruct (memb (sname s) (x_tomb k)) eqn:Et; [discriminate|]. destruct (append_accepted _ _ _ _); [|discriminate]. rewrite <- Eo. intros [= <-].
      apply good_reply; cbn; auto. apply (good_log k (sname s)); auto. apply place_grows.
  - unfold es_deliver. destruct (x_sub k); [|discriminate]. destruct (nth_error _ _); [|discriminate]. destruct G as [A B C D E F].
    destruct (internal _); [intros [= <-]; split; auto|]. destruct (negb _); [intros [= <-]; split; auto|]. destruct (record_from _ _); intros [= <-]; split; auto.
  - intros [= <-]. destruct G as [A B C D E F]. split; auto.
  - destruct (memb sn (x_tomb k)) eqn:Et; [discriminate|]. intros [= <-]. apply (good_log k sn); auto. split; cbn; auto.
    + now rewrite N.add_0_r.
    + repeat constructor.
    + constructor; [cbn; lia|auto].
  - intros [= <-]. destruct G as [A B C D E F]. split; cbn; auto.
    + intros i c Hc. rewrite nth_error_map in Hc. destruct (nth_error (x_calls k) i) as [c'|] eqn:Hn; [|discriminate]. injection Hc as <-. cbn. auto.
    + intros i o Hi. destruct (D i o Hi) as (c & Hc & Ho). exists (mk_escall (es_op c) XDone). rewrite nth_error_map, Hc. auto.
    + intros i x Hi. destruct (E i x Hi) as (c & Hc & Ho). exists (mk_escall (es_op c) XDone). rewrite nth_error_map, Hc. auto.
    + intros i c Hc. rewrite nth_error_map in Hc. destruct (nth_error (x_calls k) i) as [c'|] eqn:Hn; [|discriminate]. injection Hc as <-. exact Logic.I.
Qed.

Lemma good_run ls : forall k k', good k -> xrun j prefix recdel k ls = Some k' -> good k'.
Proof.
  induction ls as [|lb ls IH]; intros k k' G; cbn; [now intros [= <-]|].
  destruct (xstep _ _ _ k lb) eqn:E; [|discriminate]. intros H. eapply IH; [|exact H]. eapply good_step; eauto.
Qed.
End Proofs.
