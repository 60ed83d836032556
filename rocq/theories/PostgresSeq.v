(** The PostgreSQL store used by one client at a time. *)
From Coq Require Import Sorted Permutation PeanoNat.
From Verif Require Import Base LogSpec StoreSpec Locks LocksSpec LocksProofs Postgres PostgresSpec PostgresProofs PostgresStream PostgresAck PostgresMore.

(** The calls [ops] made one after the other, each answered before the next one is
    made, nothing failing. *)
Inductive one_by_one (j : jlib) (key : string -> N) (limit : nat) : pgconf -> list op -> list out -> pgconf -> Prop :=
| ob_nil k : one_by_one j key limit k [] [] k
| ob_cons k o n k1 x ops xs k2 :
    grun j key limit k (GInvoke o :: repeat (GStep (length (g_calls k))) n) = Some k1 ->
    g_hist k1 = g_hist k ++ [Inv (length (g_calls k)) o; Ret (length (g_calls k)) x] ->
    one_by_one j key limit k1 ops xs k2 ->
    one_by_one j key limit k (o :: ops) (x :: xs) k2.

(** The store's JSON as a codec of the specification: a record can be written if its
    data and its metadata can. *)
Definition event_of (r : record) : event :=
  mk_event (r_atype r) (r_aid r) (r_etype r) (r_data r) (r_meta r) (r_eid r) (r_ts r).
Definition json_codec (j : jlib) : codec :=
  mk_codec (fun r => match j_data j (event_of r), j_meta j (event_of r) with Some d, Some m => Some (d ++ m)%string | _, _ => None end)
           (fun _ => None).

(** Calls without metadata and without a context that ends. *)
Definition without_metadata (j : jlib) (o : op) : Prop :=
  match o with
  | OpSave _ _ evs cn => cn = None /\ forall e, In e evs -> ev_meta e = "" /\ j_meta j e = Some "null"
  | OpDelete _ _ cn => cn = None
  | OpTotal _ cn => cn = None
  | _ => True
  end.

(** The one difference: reading a stream from beyond its end reports that the stream
    does not exist. *)
Definition pg_agrees (o : op) (spec real : out) : Prop :=
  spec = real \/
  (exists n s, o = OpByStream n s) /\ spec = OutResults [] /\ real = OutResults [RErr EStreamNotFound].

Fixpoint all_pg_agree (ops : list op) (specs reals : list out) : Prop :=
  match ops, specs, reals with
  | [], [], [] => True
  | o :: ops', x :: specs', y :: reals' => pg_agrees o x y /\ all_pg_agree ops' specs' reals'
  | _, _, _ => False
  end.

Section Seq.
Variable j : jlib.
Variable key : string -> N.
Variable limit : nat.
Hypothesis Hj : json_ok j.
Notation gstep := (gstep j key limit).
Notation grun := (grun j key limit).

Lemma upd_end {A} (l : list A) x y : upd (length l) x (l ++ [y]) = l ++ [x].
Proof. induction l as [|a l IH]; cbn; auto. now rewrite IH. Qed.
Lemma nth_end {A} (l : list A) x : nth_error (l ++ [x]) (length l) = Some x.
Proof. rewrite nth_error_app2, Nat.sub_diag; auto. Qed.

Definition fresh (k : pgconf) (o : op) (p : pgpc) (lk : N -> option nat) : pgconf :=
  mk_pg (g_rows k) (g_seq k) lk (g_calls k ++ [mk_pgcall o p]) (g_hist k ++ [Inv (length (g_calls k)) o]) (g_bcast k).
Ltac parts := unfold fresh, reply, broadcast, set_call, set_seq, set_rows, take_lock, free_locks; cbn [g_rows g_seq g_locks g_calls g_hist g_bcast].

Definition quiet (c : pgcall) : Prop := exists b, pg_pc c = PDone b.

Record Same (k : pgconf) (L : log) : Prop := {
  sm_rows : Forall2 (fun row r => decode_row j row = Some r) (g_rows k) (l_recs L);
  sm_seq : g_seq k = l_last L;
  sm_sort : StronglySorted gsn_lt (g_rows k);
  sm_bound : Forall (fun r => r_gsn r <= g_seq k) (g_rows k);
  sm_ssn : forall s, map r_ssn (rows_of s (g_rows k)) = numbers_from 1 (length (rows_of s (g_rows k)));
  sm_locks : forall x, g_locks k x = None;
  sm_quiet : Forall quiet (g_calls k)
}.

Lemma filter2 {A B} (P : A -> B -> Prop) f g l l' : Forall2 P l l' -> (forall a b, P a b -> f a = g b) -> Forall2 P (filter f l) (filter g l').
Proof. induction 1; intros H1; cbn; [constructor|]. rewrite (H1 _ _ H). destruct (g y); auto. Qed.
Lemma decode_fields r x : decode_row j r = Some x -> r_gsn x = r_gsn r /\ r_ssn x = r_ssn r /\ r_stream x = r_stream r /\ r_atype x = r_atype r.
Proof. unfold decode_row. destruct (j_decode _ _ _); [|discriminate]. destruct (String.eqb _ _); [|discriminate]. intros E. injection E as <-. auto. Qed.
Lemma read_all rows l : Forall2 (fun row r => decode_row j row = Some r) rows l -> read_rows j rows = map RRec l.
Proof. induction 1; cbn; auto. rewrite H. now f_equal. Qed.
Lemma notify_all rows l : Forall2 (fun row r => decode_row j row = Some r) rows l -> notify j rows = (l, true).
Proof. induction 1; cbn; auto. now rewrite H, IHForall2. Qed.

Lemma length2 {A B} (P : A -> B -> Prop) l l' : Forall2 P l l' -> length l = length l'.
Proof. induction 1; cbn; auto. Qed.
Lemma same_stream k L s : Same k L -> Forall2 (fun row r => decode_row j row = Some r) (rows_of s (g_rows k)) (of_stream s L).
Proof. intros H. apply filter2; [apply H|]. intros a b E. apply decode_fields in E. unfold in_stream. now replace (r_stream b) with (r_stream a) by (symmetry; tauto). Qed.
Lemma same_length k L s : Same k L -> stream_length s L = max_ssn s (g_rows k).
Proof. intros H. unfold stream_length. rewrite <- (length2 _ _ _ (same_stream k L s H)), max_of_rows, (sm_ssn _ _ H). now rewrite max_numbers. Qed.

(** ** Reads *)
Lemma sorted_filtered f (l : list record) : StronglySorted gsn_lt l -> order_by_gsn (filter f l) = filter f l.
Proof. intros H. apply order_id. now apply sorted_filter. Qed.

Lemma read_same k L o x : Same k L -> without_metadata j o -> read_result L o = Some x -> pg_agrees o x (select j o (g_rows k)).
Proof.
  intros H W E. destruct o as [| |g|g ts|n s|s cn]; try discriminate; cbn in E.
  - injection E as <-. left. cbn. rewrite sorted_filtered by apply H. f_equal. symmetry. apply read_all. apply filter2; [apply H|].
    intros a b Eb. apply decode_fields in Eb as (-> & _). reflexivity.
  - injection E as <-. left. cbn. rewrite sorted_filtered by apply H. f_equal. symmetry. apply read_all. apply filter2; [apply H|].
    intros a b Eb. apply decode_fields in Eb as (-> & _ & _ & ->). apply Bool.andb_comm.
  - injection E as <-. cbn [select]. rewrite sorted_filtered by apply H.
    assert (R2 : Forall2 (fun row r => decode_row j row = Some r) (filter (fun r => String.eqb (r_stream r) s && (n <=? r_ssn r)) (g_rows k)) (log_by_stream n s L)).
    { unfold log_by_stream. replace (filter (fun r => String.eqb (r_stream r) s && (n <=? r_ssn r)) (g_rows k)) with (filter (fun r => n <=? r_ssn r) (rows_of s (g_rows k))).
      - apply filter2; [now apply same_stream|]. intros a b Eb. apply decode_fields in Eb as (_ & -> & _). reflexivity.
      - unfold rows_of. clear. induction (g_rows k) as [|a l IH]; cbn; auto. destruct (String.eqb _ _); cbn; rewrite ?IH; auto. }
    rewrite (read_all _ _ R2). destruct (log_by_stream n s L) as [|r l] eqn:El; cbn [map].
    + destruct (stream_length s L =? 0); [now left|]. right. eauto.
    + left. destruct (N.eqb_spec (stream_length s L) 0) as [E0|]; auto. exfalso.
      unfold stream_length in E0. assert (of_stream s L = []) by (destruct (of_stream s L); [auto|cbn in E0; lia]).
      unfold log_by_stream in El. rewrite H0 in El. discriminate.
  - cbn in W. subst cn. cbn in E. injection E as <-. left. cbn. now rewrite (same_length k L).
Qed.

(** ** Saves *)
Fixpoint number (g : N) (rows : list record) : list record :=
  match rows with [] => [] | r :: rest => with_gsn (g + 1) r :: number (g + 1) rest end.

Lemma insert_run rows lk cs o h bc todo : forall mine g,
  grun (mk_pg rows g lk (cs ++ [mk_pgcall o (PInsert todo mine)]) h bc) (repeat (GStep (length cs)) (length todo))
  = Some (mk_pg rows (g + N.of_nat (length todo)) lk (cs ++ [mk_pgcall o (PInsert [] (mine ++ number g todo))]) h bc).
Proof.
  induction todo as [|r todo IH]; intros mine g; cbn [length repeat Postgres.grun number].
  - now rewrite app_nil_r, N.add_0_r.
  - unfold Postgres.gstep. cbn [g_calls]. rewrite nth_end. cbn [pg_op pg_pc pg_step]. parts.
    rewrite upd_end, IH. cbn. rewrite <- app_assoc. cbn. do 2 f_equal. lia.
Qed.

(** What is checked, and what is written, agrees with the specification. *)
Lemma batch_refusal s t i evs : (forall e, In e evs -> ev_meta e = "" /\ j_meta j e = Some "null") ->
  forall g n m, match refusal (json_codec j) None s t i g n m evs with
  | Some e => batch_rows j s t i n evs = inl e
  | None => exists rows, batch_rows j s t i n evs = inr rows /\ length rows = length evs /\
      (forall g', Forall2 (fun row r => decode_row j row = Some r) (number g' rows) (records_from s g' n evs))
      /\ Forall (fun r => r_stream r = s) rows
  end.
Proof.
  induction evs as [|e evs IH]; intros Hm g n m; cbn [refusal batch_rows].
  - exists []. repeat split; auto. cbn. constructor.
  - rewrite (String.eqb_sym t), (String.eqb_sym i). destruct (String.eqb (ev_atype e) t); [|reflexivity]. destruct (String.eqb (ev_aid e) i); [|reflexivity].
    cbn [negb done_at]. assert (Ee : event_of (record_at s (g + 1) (n + 1) e) = e) by (destruct e; reflexivity).
    unfold json_codec at 1. cbn [ser]. rewrite Ee. destruct (Hm e (or_introl eq_refl)) as [Em Ej]. rewrite Ej.
    destruct (j_data j e) as [d|] eqn:Ed; [|reflexivity].
    specialize (IH (fun e' He' => Hm e' (or_intror He')) (g + 1) (n + 1) (S m)).
    destruct (refusal _ _ _ _ _ _ _ _ evs) as [er|]; [now rewrite IH|]. destruct IH as (rows & -> & Hl & HF & Hs).
    eexists. split; [reflexivity|]. repeat split; [cbn; now rewrite Hl| |constructor; auto].
    intros g'. cbn [number records_from]. constructor; [|apply HF]. unfold decode_row. cbn. rewrite (Hj _ _ Ed). unfold record_at. now rewrite Em.
Qed.

Lemma number_fields g rows : map r_ssn (number g rows) = map r_ssn rows /\ map r_stream (number g rows) = map r_stream rows /\ length (number g rows) = length rows.
Proof. revert g. induction rows as [|r rows IH]; intros g; cbn; auto. destruct (IH (g + 1)) as (-> & -> & ->). auto. Qed.
Lemma number_bounds rows : forall g r, In r (number g rows) -> g < r_gsn r /\ r_gsn r <= g + N.of_nat (length rows).
Proof.
  induction rows as [|a rows IH]; intros g r; cbn; [tauto|]. intros [<-|H]; [cbn; lia|]. specialize (IH _ _ H). lia.
Qed.
Lemma number_sorted rows : forall g, StronglySorted gsn_lt (number g rows).
Proof.
  induction rows as [|a rows IH]; intros g; cbn; constructor; auto. apply Forall_forall. intros r Hr. apply number_bounds in Hr. unfold gsn_lt. cbn. lia.
Qed.
Lemma last_numbers rows : forall m, rows <> [] -> map r_ssn rows = numbers_from (m + 1) (length rows) -> last_ssn rows = m + N.of_nat (length rows).
Proof.
  intros m Hne. destruct (exists_last Hne) as (l & x & ->). rewrite map_app, app_length. cbn [length map]. rewrite Nat.add_1_r, numbers_snoc.
  intros E. apply app_inj_tail in E as [_ E]. unfold last_ssn. rewrite fold_left_app. cbn. lia.
Qed.
Lemma stream_all s rows : map r_stream rows = map (fun _ => s) rows -> Forall (fun r => r_stream r = s) rows.
Proof. induction rows as [|r rows IH]; cbn; intros E; constructor; injection E; auto. Qed.
Lemma all_stream s rows : Forall (fun r => r_stream r = s) rows -> forall g, Forall (fun r => r_stream r = s) (number g rows).
Proof. induction 1; intros g; cbn; constructor; auto. Qed.

Lemma in_use_new k o lk : in_use (fresh k o PNew lk) = in_use k.
Proof. unfold in_use, fresh. cbn. rewrite filter_app. cbn. now rewrite app_nil_r. Qed.

Lemma grun_app a : forall k b, grun k (a ++ b) = match grun k a with Some k' => grun k' b | None => None end.
Proof. induction a as [|x a IH]; intros k b; cbn; auto. destruct (gstep k x); auto. Qed.

Lemma repeat_app_n {A} (x : A) n m : repeat x (n + m) = repeat x n ++ repeat x m.
Proof. apply repeat_app. Qed.

(** A quiet state with the answered call added. *)
Lemma in_use_done k o b rows sq lk h bc : (in_use (mk_pg rows sq lk (g_calls k ++ [mk_pgcall o (PDone b)]) h bc) <= S (in_use k))%nat.
Proof. unfold in_use. cbn. rewrite filter_app, app_length. destruct b; cbn; lia. Qed.

(** The DELETE finds and locks all rows of the stream. *)
Lemma locked_none g i cs : forall n, Forall quiet cs -> forall o t d, locked_by_other g i n (cs ++ [mk_pgcall o (PDeleting t d)]) = negb (Nat.eqb (n + length cs) i) && existsb (N.eqb g) d.
Proof.
  induction cs as [|c cs IH]; intros n HF o t d; cbn.
  - rewrite Nat.add_0_r. now rewrite Bool.orb_false_r.
  - inversion HF; subst. destruct H1 as (b & ->). rewrite Bool.andb_false_r. cbn. rewrite IH by auto. now rewrite Nat.add_succ_r.
Qed.
Lemma delete_run rows sq lk cs o h bc todo : Forall quiet cs -> forall done, (forall g, In g todo -> In g (map r_gsn rows)) ->
  grun (mk_pg rows sq lk (cs ++ [mk_pgcall o (PDeleting todo done)]) h bc) (repeat (GStep (length cs)) (length todo))
  = Some (mk_pg rows sq lk (cs ++ [mk_pgcall o (PDeleting [] (done ++ todo))]) h bc).
Proof.
  intros HF. induction todo as [|g todo IH]; intros done Hin; cbn [length repeat Postgres.grun].
  - now rewrite app_nil_r.
  - unfold Postgres.gstep. cbn [g_calls]. rewrite nth_end. cbn [pg_op pg_pc pg_step g_rows].
    replace (existsb (N.eqb g) (map r_gsn rows)) with true by (symmetry; apply existsb_eqb; apply Hin; now left).
    cbn [negb g_calls]. rewrite locked_none by auto. cbn [Nat.add]. rewrite Nat.eqb_refl. cbn [negb andb]. parts.
    rewrite upd_end, IH by (intros; apply Hin; now right). now rewrite <- app_assoc.
Qed.

Lemma removed_stream s rows : NoDup (map r_gsn rows) -> removed_rows (map r_gsn (rows_of s rows)) rows = filter (fun r => negb (String.eqb (r_stream r) s)) rows.
Proof.
  intros Hn. unfold removed_rows. apply filter_ext_in. intros r Hr. f_equal. apply Bool.eq_iff_eq_true. rewrite existsb_eqb, in_map_iff. split.
  - intros (r' & E & Hr'). apply rows_of_in in Hr' as [Hr' Es]. assert (r' = r) by (eapply nodup_gsn_inj; eauto). subst. now apply String.eqb_eq.
  - intros Es. apply String.eqb_eq in Es. exists r. split; auto. apply rows_of_in. auto.
Qed.
Lemma sorted_nodup rows : StronglySorted gsn_lt rows -> NoDup (map r_gsn rows).
Proof.
  induction 1 as [|a l H IH F]; cbn; constructor; auto. intros Hi. apply in_map_iff in Hi as (x & E & Hx). rewrite Forall_forall in F. specialize (F x Hx). unfold gsn_lt in F. lia.
Qed.

Lemma quiet_snoc cs o b : Forall quiet cs -> Forall quiet (cs ++ [mk_pgcall o (PDone b)]).
Proof. intros H. apply Forall_app. split; auto. constructor; [|constructor]. exists b. reflexivity. Qed.

Lemma same_idle k L o b sq lk h bc : Same k L -> sq = g_seq k -> (forall x, lk x = None) ->
  Same (mk_pg (g_rows k) sq lk (g_calls k ++ [mk_pgcall o (PDone b)]) h bc) L.
Proof. intros [H1 H2 H3 H4 H5 H6 H7] -> Hlk. split; cbn; auto. now apply quiet_snoc. Qed.

Lemma serve k L o : Same k L -> without_metadata j o -> (in_use k < limit)%nat -> exists n k' x,
  grun k (GInvoke o :: repeat (GStep (length (g_calls k))) n) = Some k'
  /\ g_hist k' = g_hist k ++ [Inv (length (g_calls k)) o; Ret (length (g_calls k)) x]
  /\ Same k' (fst (log_exec (json_codec j) L o)) /\ pg_agrees o (snd (log_exec (json_codec j) L o)) x
  /\ (in_use k' <= S (in_use k))%nat.
Proof.
  intros HS HW Hu. set (cs := g_calls k). set (i := length cs).
  assert (Hl : Nat.leb limit (in_use k) = false) by (apply Nat.leb_gt; auto).
  assert (S0 : forall ls, grun k (GInvoke o :: ls) = grun (fresh k o PNew (g_locks k)) ls) by reflexivity.
  assert (ReadCase : (match o with OpSave _ _ _ _ | OpDelete _ _ _ => False | _ => True end) -> exists n k' x,
    grun k (GInvoke o :: repeat (GStep i) n) = Some k'
    /\ g_hist k' = g_hist k ++ [Inv i o; Ret i x]
    /\ Same k' (fst (log_exec (json_codec j) L o)) /\ pg_agrees o (snd (log_exec (json_codec j) L o)) x /\ (in_use k' <= S (in_use k))%nat).
  { intros Ho. exists 1%nat. assert (Hx : exists x, read_result L o = Some x) by (destruct o; try destruct Ho; cbn; eauto). destruct Hx as (x & Hx).
    eexists. exists (select j o (g_rows k)). rewrite S0. cbn [repeat Postgres.grun]. unfold Postgres.gstep. cbn [fresh g_calls]. unfold i, cs. rewrite nth_end. cbn [pg_op pg_pc pg_step].
    rewrite in_use_new, Hl.
    assert (E : (match o with OpSave _ _ [] _ => Some (reply (length (g_calls k)) o (OutFailed EMissingEvents) false (fresh k o PNew (g_locks k)))
      | OpSave _ _ (_ :: _) _ => Some (set_call (length (g_calls k)) o PLock (fresh k o PNew (g_locks k)))
      | OpDelete _ _ _ => Some (set_call (length (g_calls k)) o PDelCheck (fresh k o PNew (g_locks k)))
      | _ => Some (reply (length (g_calls k)) o (select j o (g_rows (fresh k o PNew (g_locks k)))) false (fresh k o PNew (g_locks k))) end) =
      Some (reply (length (g_calls k)) o (select j o (g_rows k)) false (fresh k o PNew (g_locks k)))) by (destruct o; try destruct Ho; reflexivity).
    rewrite E. split; [reflexivity|]. unfold reply, fresh. cbn [g_rows g_seq g_locks g_calls g_hist g_bcast]. rewrite upd_end, <- app_assoc.
    split; [reflexivity|]. assert (EL : log_exec (json_codec j) L o = (L, x)) by (destruct o; try destruct Ho; cbn [log_exec]; now rewrite Hx).
    rewrite EL. cbn [fst snd]. split; [apply same_idle; auto; apply HS|]. split; [eapply read_same; eauto|apply in_use_done]. }
  destruct o as [ex s evs cn|ex s cn|g|g ts|n s|s cn]; try (apply ReadCase; exact Logic.I); clear ReadCase.
  - (* save *)
    cbn in HW. destruct HW as [-> Hm]. set (o := OpSave ex s evs None) in *.
    destruct evs as [|e0 evs0].
    { exists 1%nat. eexists. exists (OutFailed EMissingEvents). rewrite S0. cbn [repeat Postgres.grun]. unfold Postgres.gstep. cbn [fresh g_calls]. unfold i, cs. rewrite nth_end. cbn [pg_op pg_pc pg_step].
      rewrite in_use_new, Hl. split; [reflexivity|]. unfold reply, fresh. cbn [g_rows g_seq g_locks g_calls g_hist g_bcast]. rewrite upd_end, <- app_assoc. split; [reflexivity|].
      cbn [o log_exec save_refused fst snd]. split; [apply same_idle; auto; apply HS|]. split; [now left|apply in_use_done]. }
    set (evs := e0 :: evs0) in *.
    set (lk1 := fun x => if x =? key s then Some i else g_locks k x).
    assert (S3 : forall n, grun k (GInvoke o :: repeat (GStep i) (2 + n)) = grun (fresh k o PCheck lk1) (repeat (GStep i) n)).
    { intros n. rewrite S0. cbn [Nat.add repeat Postgres.grun]. unfold Postgres.gstep at 1. cbn [fresh g_calls]. unfold i, cs. rewrite nth_end. cbn [pg_op pg_pc pg_step].
      rewrite in_use_new, Hl. cbn [o evs]. parts. rewrite upd_end. unfold Postgres.gstep at 1. cbn [g_calls]. rewrite nth_end. cbn [pg_op pg_pc pg_step g_locks].
      cbn [o]. rewrite (sm_locks _ _ HS). parts. now rewrite upd_end. }
    assert (Hlk : forall x, freed i lk1 x = None).
    { intros x. unfold freed, lk1. destruct (x =? key s); [now rewrite Nat.eqb_refl|]. now rewrite (sm_locks _ _ HS). }
    assert (Refuse : forall e, (forall n, grun (fresh k o PCheck lk1) (repeat (GStep i) (1 + n)) = grun (reply i o (OutFailed e) false (free_locks i (fresh k o PCheck lk1))) (repeat (GStep i) n)) ->
      save_refused (json_codec j) L ex s evs None = Some e -> exists n k' x,
      grun k (GInvoke o :: repeat (GStep i) n) = Some k'
      /\ g_hist k' = g_hist k ++ [Inv i o; Ret i x]
      /\ Same k' (fst (log_exec (json_codec j) L o)) /\ pg_agrees o (snd (log_exec (json_codec j) L o)) x /\ (in_use k' <= S (in_use k))%nat).
    { intros e Er Es. exists 3%nat. eexists. exists (OutFailed e). change 3%nat with (2 + 1)%nat. rewrite S3. change 1%nat with (1 + 0)%nat. rewrite Er. cbn [repeat Postgres.grun].
      split; [reflexivity|]. unfold reply, free_locks, fresh. cbn [g_rows g_seq g_locks g_calls g_hist g_bcast]. unfold i, cs. rewrite upd_end, <- app_assoc. split; [reflexivity|].
      cbn [o log_exec]. rewrite Es. cbn [fst snd]. split; [apply same_idle; auto; exact Hlk|]. split; [now left|apply in_use_done]. }
    assert (Chk : forall n, grun (fresh k o PCheck lk1) (repeat (GStep i) (1 + n)) =
      match (match ex with Some x => if max_ssn s (g_rows k) =? x then None else Some (EUnexpectedSeq x (max_ssn s (g_rows k))) | None => None end) with
      | Some e => grun (reply i o (OutFailed e) false (free_locks i (fresh k o PCheck lk1))) (repeat (GStep i) n)
      | None => match batch_rows j s (ev_atype e0) (ev_aid e0) (max_ssn s (g_rows k)) evs with
                | inl e => grun (reply i o (OutFailed e) false (free_locks i (fresh k o PCheck lk1))) (repeat (GStep i) n)
                | inr rows => grun (fresh k o (PInsert rows []) lk1) (repeat (GStep i) n)
                end
      end).
    { intros n. cbn [Nat.add repeat Postgres.grun]. unfold Postgres.gstep at 1. cbn [fresh g_calls]. unfold i at 1, cs at 1. rewrite nth_end. cbn [pg_op pg_pc pg_step o g_rows]. fold o.
      destruct (match ex with Some _ => _ | None => None end); [reflexivity|]. cbn [evs first_type first_id]. fold evs.
      destruct (batch_rows _ _ _ _ _ _); [reflexivity|]. unfold fresh. parts. unfold i, cs. now rewrite upd_end. }
    pose proof (same_length k L s HS) as Elen.
    destruct (match ex with Some x => if max_ssn s (g_rows k) =? x then None else Some (EUnexpectedSeq x (max_ssn s (g_rows k))) | None => None end) as [er|] eqn:Ex.
    { apply (Refuse er); auto. cbn [evs save_refused done_at]. destruct ex as [x|]; [|discriminate]. rewrite Elen, N.eqb_sym. destruct (_ =? x); [discriminate|]. auto. }
    assert (Esr : save_refused (json_codec j) L ex s evs None = refusal (json_codec j) None s (ev_atype e0) (ev_aid e0) (l_last L) (stream_length s L) 0 evs).
    { cbn [evs save_refused done_at]. destruct ex as [x|]; auto. rewrite Elen, N.eqb_sym. destruct (_ =? x); [auto|discriminate]. }
    pose proof (batch_refusal s (ev_atype e0) (ev_aid e0) evs Hm (l_last L) (max_ssn s (g_rows k)) 0) as Hb. rewrite Elen in Esr. rewrite <- Esr in Hb.
    destruct (save_refused (json_codec j) L ex s evs None) as [er|] eqn:Er.
    { apply (Refuse er); auto. intros n. rewrite Chk, Hb. reflexivity. }
    destruct Hb as (rows & Eb & Hlen & HF & Hs). destruct (batch_shape _ _ _ _ _ _ _ Eb) as (_ & _ & Hssn & _).
    clear Refuse. exists (2 + (1 + (length rows + 2)))%nat. rewrite S3, Chk, Eb. rewrite repeat_app_n, grun_app. unfold fresh, i, cs. rewrite insert_run. cbn [app].
    set (mine := number (g_seq k) rows).
    assert (Hmine : Forall2 (fun row r => decode_row j row = Some r) mine (appended L s evs)).
    { unfold mine, appended. rewrite (sm_seq _ _ HS), Elen. apply HF. }
    cbn [repeat Postgres.grun]. unfold Postgres.gstep at 1. cbn [g_calls]. rewrite nth_end. cbn [pg_op pg_pc pg_step]. parts.
    rewrite upd_end. unfold Postgres.gstep at 1. cbn [g_calls]. rewrite nth_end. cbn [pg_op pg_pc pg_step]. rewrite (notify_all _ _ Hmine).
    parts. rewrite upd_end. eexists. exists (OutSaved (last_ssn mine) (appended L s evs)). split; [reflexivity|].
    cbn [g_rows g_seq g_locks g_calls g_hist g_bcast]. rewrite <- app_assoc. split; [reflexivity|].
    assert (EL : log_exec (json_codec j) L o = (append_log L s evs, OutSaved (stream_length s L + N.of_nat (length evs)) (appended L s evs))) by (cbn [o log_exec]; now rewrite Er).
    rewrite EL. cbn [fst snd]. destruct (number_fields (g_seq k) rows) as (N1 & N2 & N3). fold mine in N1, N2, N3.
    split; [|split].
    + split; cbn [g_rows g_seq g_locks g_calls].
      * cbn. apply Forall2_app; [apply HS|exact Hmine].
      * cbn [append_log l_last]. rewrite (sm_seq _ _ HS), Hlen. reflexivity.
      * apply sorted_app; [apply HS|apply number_sorted|]. intros x y Hx Hy. pose proof (sm_bound _ _ HS) as B. rewrite Forall_forall in B. specialize (B _ Hx). apply number_bounds in Hy. unfold gsn_lt. lia.
      * apply Forall_app. split; [eapply Forall_impl; [|apply (sm_bound _ _ HS)]; cbn; lia|]. apply Forall_forall. intros y Hy. apply number_bounds in Hy. lia.
      * intros s'. rewrite rows_of_app. assert (Hall : Forall (fun r => r_stream r = s) mine) by (apply all_stream; auto).
        destruct (string_dec s' s) as [->|Ns].
        -- rewrite (rows_of_all s mine Hall), map_app, app_length, numbers_app, (sm_ssn _ _ HS). f_equal. rewrite N1, N3, Hlen, Hssn. f_equal.
           rewrite max_of_rows, (sm_ssn _ _ HS), max_numbers. lia.
        -- rewrite (rows_of_none s' s mine Hall Ns), app_nil_r. apply HS.
      * exact Hlk.
      * apply quiet_snoc. apply HS.
    + left. f_equal. rewrite (last_numbers mine (max_ssn s (g_rows k))).
      * rewrite Elen, N3, Hlen. reflexivity.
      * intros E0. rewrite E0 in N3. rewrite Hlen in N3. discriminate.
      * rewrite N1, N3, Hlen. exact Hssn.
    + apply in_use_done.
  - (* delete *)
    cbn in HW. subst cn. set (o := OpDelete ex s None) in *. pose proof (same_length k L s HS) as Elen.
    assert (S1 : forall n, grun k (GInvoke o :: repeat (GStep i) (1 + n)) = grun (fresh k o PDelCheck (g_locks k)) (repeat (GStep i) n)).
    { intros n. rewrite S0. cbn [Nat.add repeat Postgres.grun]. unfold Postgres.gstep at 1. cbn [fresh g_calls]. unfold i, cs. rewrite nth_end. cbn [pg_op pg_pc pg_step].
      rewrite in_use_new, Hl. cbn [o]. parts. now rewrite upd_end. }
    assert (Chk : forall n, grun (fresh k o PDelCheck (g_locks k)) (repeat (GStep i) (1 + n)) =
      if max_ssn s (g_rows k) =? 0 then grun (reply i o (OutFailed EStreamNotFound) true (fresh k o PDelCheck (g_locks k))) (repeat (GStep i) n)
      else if max_ssn s (g_rows k) =? ex then grun (fresh k o PDelGo (g_locks k)) (repeat (GStep i) n)
      else grun (reply i o (OutFailed (EUnexpectedSeq ex (max_ssn s (g_rows k)))) true (fresh k o PDelCheck (g_locks k))) (repeat (GStep i) n)).
    { intros n. cbn [Nat.add repeat Postgres.grun]. unfold Postgres.gstep at 1. cbn [fresh g_calls]. unfold i at 1, cs at 1. rewrite nth_end. cbn [pg_op pg_pc pg_step o g_rows]. fold o.
      destruct (_ =? 0); [reflexivity|]. destruct (_ =? ex); [|reflexivity]. unfold fresh. parts. unfold i, cs. now rewrite upd_end. }
    assert (Refuse : forall e, delete_refused L ex s None = Some e ->
      (forall n, grun (fresh k o PDelCheck (g_locks k)) (repeat (GStep i) (1 + n)) = grun (reply i o (OutFailed e) true (fresh k o PDelCheck (g_locks k))) (repeat (GStep i) n)) -> exists n k' x,
      grun k (GInvoke o :: repeat (GStep i) n) = Some k'
      /\ g_hist k' = g_hist k ++ [Inv i o; Ret i x]
      /\ Same k' (fst (log_exec (json_codec j) L o)) /\ pg_agrees o (snd (log_exec (json_codec j) L o)) x /\ (in_use k' <= S (in_use k))%nat).
    { intros e Es Er. exists (1 + (1 + 0))%nat. eexists. exists (OutFailed e). rewrite S1, Er. cbn [repeat Postgres.grun]. split; [reflexivity|].
      unfold reply, fresh. cbn [g_rows g_seq g_locks g_calls g_hist g_bcast]. unfold i, cs. rewrite upd_end, <- app_assoc. split; [reflexivity|].
      cbn [o log_exec]. rewrite Es. cbn [fst snd]. split; [apply same_idle; auto; apply HS|]. split; [now left|apply in_use_done]. }
    destruct (max_ssn s (g_rows k) =? 0) eqn:E0.
    { apply (Refuse EStreamNotFound); [|intros; now rewrite Chk]. unfold delete_refused. cbn. now rewrite Elen, E0. }
    destruct (max_ssn s (g_rows k) =? ex) eqn:E1.
    2:{ apply (Refuse (EUnexpectedSeq ex (max_ssn s (g_rows k)))); [|intros; now rewrite Chk]. unfold delete_refused. cbn. now rewrite Elen, E0, N.eqb_sym, E1. }
    clear Refuse. set (todo := map r_gsn (rows_of s (g_rows k))).
    exists (1 + (1 + (1 + (length todo + 1))))%nat. rewrite S1, Chk.
    assert (Go : forall n, grun (fresh k o PDelGo (g_locks k)) (repeat (GStep i) (1 + n)) = grun (fresh k o (PDeleting todo []) (g_locks k)) (repeat (GStep i) n)).
    { intros n. cbn [Nat.add repeat Postgres.grun]. unfold Postgres.gstep at 1. cbn [fresh g_calls]. unfold i at 1, cs at 1. rewrite nth_end. cbn [pg_op pg_pc pg_step o g_rows]. parts.
      unfold i at 1, cs at 1. now rewrite upd_end. }
    rewrite Go, repeat_app_n, grun_app. unfold fresh, i, cs. rewrite delete_run; [|apply HS|].
    2:{ intros g Hg. unfold todo in Hg. apply in_map_iff in Hg as (r & <- & Hr). apply in_map. now apply rows_of_in in Hr. }
    cbn [repeat Postgres.grun app]. unfold Postgres.gstep at 1. cbn [g_calls]. rewrite nth_end. cbn [pg_op pg_pc pg_step]. parts. rewrite upd_end.
    eexists. exists OutDeleted. split; [reflexivity|]. cbn [g_rows g_seq g_locks g_calls g_hist g_bcast]. rewrite <- app_assoc. split; [reflexivity|].
    assert (EL : log_exec (json_codec j) L o = (remove_stream s L, OutDeleted)).
    { cbn [o log_exec]. unfold delete_refused. cbn. rewrite Elen, E0, N.eqb_sym, E1. reflexivity. }
    rewrite EL. cbn [fst snd]. unfold todo. rewrite removed_stream by (apply sorted_nodup; apply HS).
    split; [|split; [now left|apply in_use_done]].
    split; cbn [g_rows g_seq g_locks g_calls remove_stream l_recs l_last].
    + apply filter2; [apply HS|]. intros a b Eb. apply decode_fields in Eb as (_ & _ & Eb & _). unfold in_stream. now rewrite Eb.
    + apply HS.
    + apply sorted_filter. apply HS.
    + apply Forall_forall. intros r Hr. apply filter_In in Hr as [Hr _]. pose proof (sm_bound _ _ HS) as B. rewrite Forall_forall in B. auto.
    + intros s'. unfold rows_of at 1 2. rewrite filter_comm. fold (rows_of s' (g_rows k)). destruct (string_dec s' s) as [->|Ns].
      * rewrite filter_false; [reflexivity|]. intros r Hr. apply rows_of_in in Hr as [_ ->]. now rewrite String.eqb_refl.
      * rewrite filter_true; [apply HS|]. intros r Hr. apply rows_of_in in Hr as [_ ->]. destruct (String.eqb_spec s' s); [congruence|auto].
    + apply HS.
    + apply quiet_snoc. apply HS.
Qed.

Lemma same_start : Same pg_start empty_log.
Proof. split; cbn; auto; constructor. Qed.

Lemma serve_all ops : forall k L, Same k L -> Forall (without_metadata j) ops -> (in_use k + length ops <= limit)%nat ->
  exists xs k', one_by_one j key limit k ops xs k' /\ all_pg_agree ops (snd (run (log_exec (json_codec j)) L ops)) xs
    /\ Same k' (fst (run (log_exec (json_codec j)) L ops)).
Proof.
  induction ops as [|o ops IH]; intros k L HS HF Hu; cbn [run].
  - exists [], k. split; [constructor|]. split; [exact Logic.I|exact HS].
  - inversion HF; subst. cbn in Hu. destruct (serve k L o HS H1) as (n & k1 & x & E1 & Eh & HS1 & HA & Hu1); [lia|].
    destruct (log_exec (json_codec j) L o) as [L1 y]. cbn [fst snd] in *.
    destruct (IH k1 L1 HS1 H2) as (xs & k2 & H3 & H4 & H5); [lia|].
    destruct (run (log_exec (json_codec j)) L1 ops) as [L2 ys]. cbn [fst snd] in *.
    exists (x :: xs), k2. split; [econstructor; eauto|]. split; [cbn; auto|auto].
Qed.
End Seq.
