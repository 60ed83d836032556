(** Proofs about the WebSocket API: a run of it is, for the clients, a run of the
    subscription machine. *)
From Coq Require Import PeanoNat.
From Verif Require Import Base LogSpec Core CoreSpec CoreProofs LogProofs Broadcaster BroadcasterProofs
  Subscription SubscriptionSpec SubscriptionProofs SubscriptionCover SubscriptionRun WebSocket WebSocketSpec.

Definition sing (r : record) : list record := [r].

(** The API's machine with the store's log, and [G] as saves handing over. *)
Definition ghost (L : log) (G : list (list record)) (z : sys) : sys :=
  mk_sys L G (y_queue z) (y_now z) (y_b z) (y_open z) (y_closing z) (y_subs z).
Definition ghost_mode : mode := mk_mode false api_buffer false.

Definition api_label (l : label) : Prop :=
  match l with YCommit _ | YDelete _ | YAccept _ => False | _ => True end.

Lemma fold_stop_ghost L G l : forall z,
  fold_left (fun s i => stop_listed i s) l (ghost L G z) = ghost L G (fold_left (fun s i => stop_listed i s) l z).
Proof.
  induction l as [|i l IH]; intros z; [reflexivity|]. cbn [fold_left]. rewrite <- IH. f_equal.
  unfold stop_listed. cbn. destruct (nth_error (y_subs z) i); reflexivity.
Qed.

Lemma ghost_step m m' L P G z z' l : m_locked m' = false -> api_label l -> ystep m (ghost L P z) l = Some z' ->
  y_log z' = L /\ y_pend z' = P /\ ystep m' (ghost L G z) l = Some (ghost L G z').
Proof.
  intros M A H. destruct l; try contradiction; cbn [ystep ghost y_log y_pend y_queue y_now y_b y_open y_closing y_subs] in *.
  - unfold idle in *. cbn in *. destruct (y_queue z) as [|r rest]; [discriminate|]. destruct (_ && _)%bool; [|discriminate].
    injection H as <-. split; [|split]; reflexivity.
  - destruct (y_now z) as [[r ts]|]; [|discriminate]. destruct (nth_error _ _) as [u|]; [|discriminate].
    destruct (_ && _)%bool; [|discriminate]. injection H as <-.
    split; [|split]; reflexivity.
  - destruct (y_now z) as [[r ts]|]; [|discriminate]. destruct (nth_error _ _) as [u|]; [|discriminate].
    destruct (servable t ts); [|discriminate]. injection H as <-.
    split; [|split]; reflexivity.
  - destruct (nth_error _ _) as [u|]; [|discriminate]. destruct (u_phase u); try discriminate. injection H as <-.
    split; [|split]; reflexivity.
  - destruct (nth_error _ _) as [u|]; [|discriminate]. destruct (u_phase u); try discriminate. injection H as <-.
    split; [|split]; reflexivity.
  - destruct (nth_error _ _) as [u|]; [|discriminate]. destruct (u_phase u) as [|second from [|q qs] chans| | | | | | |]; try discriminate.
    + injection H as <-. split; [|split]; reflexivity.
    + destruct (_ || _)%bool; [|discriminate]. injection H as <-. rewrite M. cbn [negb orb].
      split; [|split]; reflexivity.
  - destruct (nth_error _ _) as [u|]; [|discriminate]. destruct (u_phase u) as [| |second [|r rest]| | | | | |]; try discriminate.
    injection H as <-. split; [|split]; reflexivity.
  - destruct (nth_error _ _) as [u|]; [|discriminate]. unfold idle in *. cbn in *.
    destruct (u_phase u) as [| | |[|q qs] second| | | | |]; try discriminate.
    + injection H as <-. split; [|split]; reflexivity.
    + destruct (_ && _)%bool; [|discriminate]. injection H as <-. split; [|split]; reflexivity.
  - destruct (nth_error _ _) as [u|]; [|discriminate]. destruct (u_phase u); try discriminate. destruct (u_buf u); [discriminate|].
    injection H as <-. split; [|split]; reflexivity.
  - destruct (nth_error _ _) as [u|]; [|discriminate]. injection H as <-. split; [|split]; reflexivity.
  - destruct (nth_error _ _) as [u|]; [|discriminate]. destruct (u_phase u); try discriminate. destruct (u_stop u); [|discriminate].
    injection H as <-. split; [|split]; reflexivity.
  - destruct (nth_error _ _) as [u|]; [|discriminate]. unfold idle in *. cbn in *.
    destruct (u_phase u) as [| | | | |[|q qs] fin| | |]; try discriminate.
    + injection H as <-. split; [|split]; reflexivity.
    + destruct (_ && _)%bool; [|discriminate]. injection H as <-. split; [|split]; reflexivity.
  - destruct (y_closing z); [discriminate|]. injection H as <-. split; [|split]; reflexivity.
  - unfold idle in *. cbn in *. destruct (_ && _)%bool; [|discriminate]. injection H as <-.
    change (mk_sys L P (y_queue z) (y_now z) (y_b z) false true (y_subs z))
      with (ghost L P (mk_sys L P (y_queue z) (y_now z) (y_b z) false true (y_subs z))).
    rewrite fold_stop_ghost. split; [reflexivity|]. split; [reflexivity|].
    change (mk_sys L G (y_queue z) (y_now z) (y_b z) false true (y_subs z))
      with (ghost L G (mk_sys L P (y_queue z) (y_now z) (y_b z) false true (y_subs z))).
    rewrite fold_stop_ghost. reflexivity.
Qed.

(** Committing records one by one. *)
Lemma ghost_commit rs : forall L G z, grows (l_last L) rs = true ->
  yrun ghost_mode (ghost L G z) (map (fun r => YCommit [r]) rs) = Some (ghost (commit_log rs L) (G ++ map sing rs) z).
Proof.
  induction rs as [|r rs IH]; intros L G z Gr.
  - cbn. unfold commit_log. cbn. rewrite !app_nil_r. destruct L; reflexivity.
  - cbn [map yrun]. cbn [grows] in Gr. apply andb_true_iff in Gr as [G1 G2].
    cbn [ystep ghost y_log y_pend y_subs ghost_mode m_wait negb orb]. cbn [grows andb]. rewrite G1. cbn [length Nat.eqb negb andb ghost_mode m_locked orb].
    change (yrun _ _ _) with (yrun ghost_mode (ghost (commit_log [r] L) (G ++ [[r]]) z) (map (fun r => YCommit [r]) rs)).
    rewrite IH; auto. f_equal. unfold ghost. f_equal.
    + unfold commit_log. cbn [l_recs l_last]. rewrite <- app_assoc. f_equal.
      change (map r_gsn (r :: rs)) with (r_gsn r :: map r_gsn rs). symmetry. apply (last_gsn_cons r rs).
    + rewrite <- app_assoc. reflexivity.
Qed.

Lemma commit_inv m y rs y' : ystep m y (YCommit rs) = Some y' ->
  grows (l_last (y_log y)) rs = true /\ rs <> [] /\ y_log y' = commit_log rs (y_log y).
Proof.
  cbn [ystep]. destruct (_ && _)%bool eqn:E; [|discriminate]. intros H. injection H as <-. cbn.
  rewrite !andb_true_iff in E. destruct E as [[[_ E] F] _]. split; auto. split; auto.
  intros ->. discriminate.
Qed.

(** * What the relay has on its way *)
Definition coming (y : sys) (u : sub) : list record := inflight relay y u.

Lemma in_concat_accept k (pend : list (list record)) r rest x : nth_error pend k = Some (r :: rest) ->
  In x (concat (match rest with [] => drop_nth k pend | _ => set_nth k rest pend end)) -> In x (concat pend).
Proof.
  revert k. induction pend as [|p pend IH]; intros k H I; [destruct k; discriminate|].
  destruct k as [|k]; cbn in H.
  - injection H as ->. cbn. destruct rest; cbn in *; right; auto.
  - cbn. apply in_app_iff. destruct rest as [|r' rest]; cbn in I; apply in_app_iff in I as [I|I]; auto; right; eapply IH; eauto.
Qed.

(** Nothing gets on its way to a subscriber but what is committed. *)
Lemma coming_shrinks m y l y' i u u' x : ystep m y l = Some y' ->
  nth_error (y_subs y) i = Some u -> change m y i u l u' ->
  In x (inflight i y' u') -> In x (inflight i y u) \/ exists rs, l = YCommit rs /\ In x rs.
Proof.
  intros H Hi C I. pose proof (ystep_env _ _ _ _ H) as E.
  assert (NF : forall t r ts, y_now y = Some (r, ts) ->
            y_now y' = match remove_target t ts with [] => None | ts' => Some (r, ts') end ->
            In x (now_for i y') -> In x (now_for i y)).
  { intros t r ts E1 E2. unfold now_for. rewrite E1, E2.
    assert (K : existsb (has_id i) (remove_target t ts) = true -> existsb (has_id i) ts = true).
    { rewrite !existsb_exists. intros (z & Z1 & Z2). exists z. split; auto. now apply remove_target_in in Z1 as [Z1 _]. }
    destruct (remove_target t ts) as [|a b]; [intros []|]. destruct (existsb (has_id i) (a :: b)); [|intros []].
    rewrite K; auto. }
  destruct (change_buf _ _ _ _ _ _ C) as [[B1 B2]|[(t & r & ts & -> & B2 & B3 & B3' & B4)|(r & ok & -> & B)]].
  2:{ inversion E; subst; try contradiction. rewrite H1 in B3. injection B3 as -> ->. left. unfold inflight in *.
      rewrite B4, H5, H6 in I. rewrite !in_app_iff in I; rewrite !in_app_iff.
      destruct I as [[I|[->|[]]]|[I|I]]; auto.
      - right. left. unfold now_for. rewrite H1. apply andb_true_iff in B3' as [B3' _]. apply existsb_exists in B3' as (t' & T1 & T2).
        apply t_eqb_eq in T2. subst t'.
        assert (X : existsb (has_id (t_id t)) ts = true).
        { apply existsb_exists. exists t. split; auto. apply Nat.eqb_refl. }
        rewrite X. now left.
      - right. left. exact (NF t r ts H1 H3 I). }
  2:{ inversion E; subst; try contradiction. left. unfold inflight, now_for in *. rewrite B, H3, H4, H2 in *. now right. }
  unfold inflight in *. rewrite B1 in I. inversion E; subst; clear E; rewrite !in_app_iff in I; rewrite !in_app_iff.
  - rewrite H2, H3 in I. unfold now_for in *. rewrite H4 in I. auto.
  - rewrite H2, H3, concat_app, in_app_iff in I. unfold now_for in *. rewrite H4 in I. cbn in I. rewrite app_nil_r in I.
    destruct I as [I|[I|[I|[I|I]]]]; auto. right. eauto.
  - rewrite H1, H2 in I. unfold now_for in *. rewrite H3 in I. auto.
  - rewrite H3, in_app_iff in I. unfold now_for in *. rewrite H4 in I. rewrite H2 in I. left.
    destruct I as [I|[I|[[I|[->|[]]]|I]]]; auto.
    + right. right. right. apply nth_error_In in H0. apply in_concat. exists (x :: rest). split; auto. now left.
    + right. right. right. eapply in_concat_accept; eauto.
  - rewrite H3 in I. left. rewrite H1. unfold now_for in I. rewrite H4 in I.
    destruct I as [I|[I|[I|I]]]; auto; [|right; right; left; now right].
    right. right. left. destruct (targets r (y_b y)); [destruct I|]. destruct (existsb _ _); [|destruct I]. destruct I as [->|[]]. now left.
  - rewrite H4, H5 in I. destruct I as [I|[I|I]]; auto. left. right. left. exact (NF t r ts H0 H2 I).
  - rewrite H4, H5 in I. destruct I as [I|[I|I]]; auto. left. right. left. exact (NF t r ts H0 H2 I).
  - rewrite H3, H4 in I. unfold now_for in *. rewrite H5 in I. auto.
  - rewrite H3, H4 in I. unfold now_for in *. rewrite H5 in I. auto.
Qed.

(** * The run the clients see *)
Definition seen_as (l : ws_label) : list label :=
  match l with
  | AtApi x => [x]
  | AtStore (YCommit rs) => map (fun r => YCommit [r]) rs
  | AtStore (YDelete s) => [YDelete s]
  | _ => []
  end.
Definition added (l : ws_label) : list record := match l with AtStore (YCommit rs) => rs | _ => [] end.

Inductive tr : list ws_label -> list label -> Prop :=
| tr_nil : tr [] []
| tr_relay : forall k ls gl, tr ls gl -> tr (Relay :: ls) (YAccept k :: gl)
| tr_other : forall l ls gl, l <> Relay -> tr ls gl -> tr (l :: ls) (seen_as l ++ gl).

Lemma seen_start l i g : In (YStartFrom i g) (seen_as l) -> l = AtApi (YStartFrom i g).
Proof.
  destruct l as [l|l|]; cbn; try (intros []; fail).
  - destruct l; cbn; try (intros []; fail); try (intros [H|[]]; discriminate).
    intros H. apply in_map_iff in H as (x & H & _). discriminate.
  - intros [->|[]]. reflexivity.
Qed.
Lemma tr_start ls gl i g : tr ls gl -> In (YStartFrom i g) gl -> In (YStartFrom i g) (api_steps ls).
Proof.
  induction 1; cbn; intros I; auto.
  - destruct I as [I|I]; [discriminate|auto].
  - apply in_app_iff in I as [I|I].
    + apply seen_start in I. subst. now left.
    + destruct l; cbn; auto.
Qed.
Lemma tr_start_back ls gl i g : tr ls gl -> In (YStartFrom i g) (api_steps ls) -> In (YStartFrom i g) gl.
Proof.
  induction 1; cbn; intros I; auto. apply in_app_iff.
  destruct l as [l|l|]; cbn in *; auto. destruct I as [->|I]; auto.
Qed.
Lemma tr_undisturbed i ls gl : tr ls gl -> undisturbed i (api_steps ls) -> undisturbed i gl.
Proof.
  induction 1; intros U x I.
  - destruct I.
  - destruct I as [<-|I]; [exact Logic.I|]. apply IHtr; auto.
  - apply in_app_iff in I as [I|I].
    + destruct l as [l|l|]; cbn in *; try contradiction.
      * destruct l; cbn in I; try contradiction.
        -- apply in_map_iff in I as (r & <- & _). exact Logic.I.
        -- destruct I as [<-|[]]. exact Logic.I.
      * destruct I as [<-|[]]. apply (U l). now left.
    + apply IHtr; auto. destruct l; cbn in U; auto. intros z Hz. apply U. now right.
Qed.
Lemma tr_app a b ga gb : tr a ga -> tr b gb -> tr (a ++ b) (ga ++ gb).
Proof. induction 1; cbn; intros T; auto; [constructor|rewrite <- app_assoc; constructor]; auto. Qed.

Section Link.
Variable (lk : link).

(** What a step does to the relay. *)
Lemma link_store_step m w l w' : link_step lk m w l = Some w' ->
  (exists x, l = AtStore x /\ ystep m (w_store w) x = Some (w_store w') /\ w_api w' = w_api w
     /\ (w_held w' = w_held w /\ (forall ok, x <> YWork relay ok)
         \/ exists ok, x = YWork relay ok /\ w_held w' = w_held w ++ if ok then next_to_relay (w_store w) else []))
  \/ (w_store w' = w_store w
      /\ (l = Relay \/ exists x, l = AtApi x /\ api_label x /\ w_held w' = w_held w
           /\ ystep (mk_mode (m_locked m) api_buffer true) (with_store (w_store w) (w_api w)) x = Some (w_api w'))).
Proof.
  intros H.
  assert (SS : forall l w1, store_step m w l = Some w1 -> ystep m (w_store w) l = Some (w_store w1) /\ w_api w1 = w_api w /\ w_held w1 = w_held w).
  { unfold store_step. intros x w1. destruct (ystep m (w_store w) x); [|discriminate]. intros E. injection E as <-. auto. }
  destruct l as [l|l|].
  - left. exists l. split; auto. destruct l; cbn [link_step] in H;
      try (apply SS in H as (H1 & H2 & H3); split; [exact H1|]; split; [exact H2|]; left; split; [exact H3|discriminate]; fail).
    + destruct (_ || _)%bool; [|discriminate]. apply SS in H as (H1 & H2 & H3). split; [exact H1|]. split; [exact H2|]. left. split; [exact H3|discriminate].
    + destruct (_ || _)%bool; [|discriminate]. apply SS in H as (H1 & H2 & H3). split; [exact H1|]. split; [exact H2|]. left. split; [exact H3|discriminate].
    + destruct i as [|i].
      * destruct (_ && _)%bool; [|discriminate]. destruct (ystep _ _ _) as [y1|] eqn:E; [|discriminate].
        injection H as <-. cbn [w_store w_api w_held]. split; auto. split; auto. right. exists ok. split; reflexivity.
      * apply SS in H as (H1 & H2 & H3). split; [exact H1|]. split; [exact H2|]. left. split; [exact H3|discriminate].
    + destruct i as [|i].
      * destruct (is_wire lk); [|discriminate]. apply SS in H as (H1 & H2 & H3). split; [exact H1|]. split; [exact H2|]. left. split; [exact H3|discriminate].
      * apply SS in H as (H1 & H2 & H3). split; [exact H1|]. split; [exact H2|]. left. split; [exact H3|discriminate].
    + destruct i as [|i].
      * destruct (relay_free lk w); [|discriminate]. apply SS in H as (H1 & H2 & H3). split; [exact H1|]. split; [exact H2|]. left. split; [exact H3|discriminate].
      * apply SS in H as (H1 & H2 & H3). split; [exact H1|]. split; [exact H2|]. left. split; [exact H3|discriminate].
  - right. destruct l; cbn [link_step] in H; try discriminate;
      (destruct (ystep _ _ _) as [z|] eqn:E; [|discriminate]); injection H as <-; cbn [w_store w_api w_held]; split; auto;
      right; eexists; (split; [reflexivity|]); (split; [exact Logic.I|]); split; auto.
  - right. cbn [link_step] in H. destruct (w_held w); [discriminate|]. destruct (accept _ _); [|discriminate]. injection H as <-. cbn. auto.
Qed.

Lemma ghost_other m w l w' G : l <> Relay -> link_step lk m w l = Some w' ->
  yrun ghost_mode (ghost (y_log (w_store w)) G (w_api w)) (seen_as l)
    = Some (ghost (y_log (w_store w')) (G ++ map sing (added l)) (w_api w')).
Proof.
  intros N H. destruct (link_store_step _ _ _ _ H) as [(x & -> & E & EA & _)|(ES & [->|(x & -> & A & _ & E)])]; [| congruence|].
  - assert (D : (exists rs, x = YCommit rs) \/ (exists s, x = YDelete s)
                \/ (seen_as (AtStore x) = [] /\ added (AtStore x) = [] /\ y_log (w_store w') = y_log (w_store w))).
    { destruct x; eauto; right; right; (split; [reflexivity|]); (split; [reflexivity|]);
        pose proof (ystep_env _ _ _ _ E) as En; inversion En; subst; try contradiction; auto. }
    rewrite EA. destruct D as [[rs ->]|[[s ->]|(S & A & EL)]].
    + destruct (commit_inv _ _ _ _ E) as (Gr & _ & EL). cbn [seen_as added]. rewrite EL. apply ghost_commit; auto.
    + pose proof (ystep_env _ _ _ _ E) as En. inversion En; subst; try contradiction.
      cbn [seen_as added yrun ystep ghost y_subs map ghost_mode m_wait negb orb andb]. rewrite app_nil_r. match goal with Q : y_log (w_store w') = _ |- _ => rewrite Q end. reflexivity.
    + rewrite S, A, EL. cbn [yrun map]. now rewrite app_nil_r.
  - cbn [seen_as added yrun map]. rewrite app_nil_r.
    destruct (ghost_step _ ghost_mode _ _ G _ _ _ eq_refl A E) as (_ & _ & K). rewrite K, ES. reflexivity.
Qed.

Lemma ghost_relay m w w' G : link_step lk m w Relay = Some w' -> exists r, w_held w = r :: w_held w'
  /\ w_store w' = w_store w
  /\ forall k, nth_error G k = Some [r] ->
     yrun ghost_mode (ghost (y_log (w_store w)) G (w_api w)) [YAccept k]
       = Some (ghost (y_log (w_store w')) (drop_nth k G) (w_api w')).
Proof.
  cbn [link_step]. destruct (w_held w) as [|r rest]; [discriminate|]. unfold accept.
  destruct (Nat.ltb _ _) eqn:L; [|discriminate]. intros H. injection H as <-. exists r. split; auto. split; auto.
  intros k Hk. cbn [yrun ystep ghost y_pend y_queue]. rewrite Hk. cbn [ghost_mode m_qcap]. rewrite L. reflexivity.
Qed.

Definition settled (u : sub) : Prop :=
  match u_phase u with PLive | PLeave _ _ | PDone | PGone => True | _ => False end.

Lemma change_settled m y i u l u' : change m y i u l u' -> settled u -> settled u'.
Proof.
  unfold settled. intros C S. destruct C; cbn; auto; try (rewrite H in S; contradiction); try rewrite H; auto.
  - destruct (_ <=? _); cbn; [now rewrite H|]. destruct ok; cbn; [now rewrite H|auto].
  - destruct fin; exact Logic.I.
Qed.

Lemma change_last m y i u l u' : change m y i u l u' -> settled u -> u_last u' = u_last u \/ exists ok, l = YWork i ok.
Proof. unfold settled. intros C S. destruct C; cbn; eauto; try (rewrite H in S; contradiction). Qed.

(** Started with Start, or not yet. *)
Definition placed (u : sub) : Prop :=
  match u_phase u with PInit | PSubscribe _ false | PCanceled | PLive | PLeave _ _ | PDone | PGone => True | _ => False end.
Lemma settled_placed u : settled u -> placed u.
Proof. unfold settled, placed. destruct (u_phase u); tauto. Qed.
Lemma change_placed m y i u l u' : change m y i u l u' -> (forall g, l <> YStartFrom i g) -> placed u -> placed u'.
Proof.
  unfold placed. intros C NS S. destruct C; cbn; auto; try (rewrite H in S; contradiction); try rewrite H; auto.
  - destruct (u_stop u); exact Logic.I.
  - exfalso. eapply NS; eauto.
  - rewrite H in S. exact S.
  - rewrite H in S. destruct second; [contradiction|exact Logic.I].
  - destruct (_ <=? _); cbn; [now rewrite H|]. destruct ok; cbn; [now rewrite H|auto].
  - destruct fin; exact Logic.I.
Qed.
Lemma change_last' m y i u l u' : change m y i u l u' -> (forall g, l <> YStartFrom i g) -> placed u ->
  u_last u' = u_last u \/ exists ok, l = YWork i ok.
Proof.
  unfold placed. intros C NS S. destruct C; cbn; eauto; try (rewrite H in S; contradiction).
  exfalso. eapply NS; eauto.
Qed.

(** Without any assumption on the schedule: what the relay may still pass on has not
    been passed on. *)
Record weak (w : ws) (G : list (list record)) (u : sub) : Prop := {
  k_relay : nth_error (y_subs (w_store w)) relay = Some u;
  k_settled : placed u;
  k_held : forall r, In r (w_held w) -> In (sing r) G /\ r_gsn r <= u_last u;
  k_incr : gsn_increasing (w_held w);
  k_coming : forall r, In r (coming (w_store w) u) -> u_last u < r_gsn r -> In (sing r) G
}.

Lemma in_drop_nth {A} (x y : A) k l : nth_error l k = Some y -> In x l -> x <> y -> In x (drop_nth k l).
Proof.
  revert k. induction l as [|a l IH]; intros k H I N; [destruct I|].
  destruct k as [|k]; cbn in *.
  - injection H as ->. destruct I; [congruence|auto].
  - destruct I as [->|I]; [now left|right; eauto].
Qed.

Lemma weak_step m w l w' G u : link_step lk m w l = Some w' -> (forall g, l <> AtStore (YStartFrom relay g)) -> weak w G u ->
  exists gl G' u', yrun ghost_mode (ghost (y_log (w_store w)) G (w_api w)) gl
                   = Some (ghost (y_log (w_store w')) G' (w_api w'))
    /\ weak w' G' u' /\ tr [l] gl.
Proof.
  intros H NS [R S Hd Hi C].
  assert (D : l = Relay \/ l <> Relay) by (destruct l; auto; right; discriminate). destruct D as [->|NR].
  - destruct (ghost_relay _ _ _ G H) as (r & E1 & E3 & K). rewrite E1 in Hd, Hi. apply incr_cons_inv in Hi as [Hi1 Hi2].
    destruct (Hd r (or_introl eq_refl)) as [I Le].
    apply In_nth_error in I as [k Hk]. exists [YAccept k], (drop_nth k G), u. split; [auto|]. split.
    + constructor; rewrite ?E3; auto.
      * intros x Hx. destruct (Hd x (or_intror Hx)) as [Ix Lx]. split; auto. eapply in_drop_nth; eauto.
        intros Es. injection Es as ->. specialize (Hi2 r Hx). lia.
      * intros x Hx Lx. eapply in_drop_nth; eauto. intros Es. injection Es as ->. lia.
    + constructor. constructor.
  - pose proof (ghost_other _ _ _ _ G NR H) as K.
    assert (T : tr [l] (seen_as l)) by (rewrite <- (app_nil_r (seen_as l)); constructor; auto; constructor).
    destruct (link_store_step _ _ _ _ H) as [(x & -> & St & _ & HD)|(ES & [->|(x & -> & _ & EH & _)])].
    + destruct (ystep_sub _ _ _ _ _ _ St R) as (u' & R' & Ch).
      assert (NS' : forall g, x <> YStartFrom relay g) by (intros g ->; exact (NS g eq_refl)).
      pose proof (change_placed _ _ _ _ _ _ Ch NS' S) as S'.
      assert (C' : forall r, In r (coming (w_store w') u') -> In r (coming (w_store w) u) \/ In r (added (AtStore x))).
      { intros r Hr. destruct (coming_shrinks _ _ _ _ _ _ _ _ St R Ch Hr) as [?|(rs & -> & ?)]; auto. }
      exists (seen_as (AtStore x)), (G ++ map sing (added (AtStore x))), u'. split; [exact K|]. split; [|exact T].
      destruct HD as [[EH NW]|(ok & -> & EH)].
      * assert (EL : u_last u' = u_last u).
        { destruct (change_last' _ _ _ _ _ _ Ch NS' S) as [E|[ok E]]; [exact E|]. exfalso. eapply NW; eauto. }
        constructor; auto; rewrite ?EL, ?EH; auto.
        -- intros r Hr. destruct (Hd r Hr). rewrite in_app_iff. auto.
        -- intros r Hr Lr. apply in_app_iff. destruct (C' r Hr) as [I|I]; [left; auto|right; now apply in_map].
      * cbn [added map] in *. rewrite app_nil_r in *. unfold next_to_relay in EH. rewrite R in EH.
        inversion Ch; subst; try (match goal with B : touches _ _ = false |- _ => cbn in B; discriminate end);
          try (match goal with B : _ \/ _ |- _ => destruct B as [B|[B|(? & B & _)]]; discriminate end).
        match goal with B : u_buf u = _ :: _ |- _ => rename B into UB end. rewrite UB in EH.
        assert (EC : coming (w_store w) u = r :: coming (w_store w') (with_buf rest u)).
        { unfold coming, inflight. rewrite UB. pose proof (ystep_env _ _ _ _ St) as En. inversion En; subst; try contradiction.
          unfold now_for. cbn. repeat match goal with Q : _ (w_store w') = _ (w_store w) |- _ => rewrite Q; clear Q end. reflexivity. }
        destruct (N.leb_spec (r_gsn r) (u_last u)) as [Lr|Lr].
        -- assert (EH' : w_held w' = w_held w) by (rewrite EH; destruct ok; apply app_nil_r).
           constructor; auto; cbn; rewrite ?EH'; auto.
           intros x Hx Lx. apply C; auto. rewrite EC. now right.
        -- assert (X : In (sing r) G) by (apply C; [rewrite EC; now left|lia]).
           assert (Y : forall x, In x (coming (w_store w') (with_buf rest u)) -> r_gsn r < r_gsn x -> In (sing x) G).
           { intros x Hx Lx. apply C; [rewrite EC; now right|lia]. }
           destruct ok.
           ++ constructor; auto; cbn; rewrite ?EH.
              ** intros x Hx. apply in_app_iff in Hx as [Hx|[<-|[]]]; [|split; [exact X|lia]].
                 destruct (Hd x Hx). split; auto; lia.
              ** apply incr_app; auto; [apply incr_cons; [apply incr_nil|intros ? []]|]. intros a b Ha [<-|[]]. destruct (Hd a Ha). lia.
           ++ rewrite app_nil_r in EH. constructor; auto; cbn; rewrite ?EH; auto.
              intros x Hx. destruct (Hd x Hx). split; auto; lia.
    + congruence.
    + exists (seen_as (AtApi x)), G, u. cbn [added map] in K. rewrite app_nil_r in K. split; [exact K|]. split; [|exact T].
      constructor; rewrite ?ES, ?EH; auto.
Qed.

Lemma weak_run m ls : forall w w' G u, link_run lk m w ls = Some w' -> (forall g, ~ In (YStartFrom relay g) (store_steps ls)) -> weak w G u ->
  exists gl G' u', yrun ghost_mode (ghost (y_log (w_store w)) G (w_api w)) gl
                   = Some (ghost (y_log (w_store w')) G' (w_api w'))
    /\ weak w' G' u' /\ tr ls gl.
Proof.
  induction ls as [|l ls IH]; cbn [link_run]; intros w w' G u H NS K.
  - injection H as <-. exists [], G, u. split; auto. split; auto. constructor.
  - destruct (link_step lk m w l) as [w1|] eqn:E; [|discriminate].
    assert (NS1 : forall g, l <> AtStore (YStartFrom relay g)) by (intros g ->; apply (NS g); now left).
    assert (NS2 : forall g, ~ In (YStartFrom relay g) (store_steps ls)) by (intros g I; apply (NS g); destruct l; cbn; auto).
    destruct (weak_step _ _ _ _ _ _ E NS1 K) as (g1 & G1 & u1 & R1 & K1 & T1).
    destruct (IH _ _ _ _ H NS2 K1) as (g2 & G2 & u2 & R2 & K2 & T2).
    exists (g1 ++ g2), G2, u2. split; [|split; auto].
    + rewrite run_app, R1. exact R2.
    + apply (tr_app [l] ls); auto.
Qed.

(** * When nothing disturbs the relay *)
Record exact_for (w : ws) (G : list (list record)) (u : sub) : Prop := {
  x_relay : nth_error (y_subs (w_store w)) relay = Some u;
  x_live : u_phase u = PLive;
  x_good : good relay [None] (w_store w) u;
  x_G : G = map sing (w_held w ++ coming (w_store w) u);
  x_above : forall r, In r (coming (w_store w) u) -> u_last u < r_gsn r;
  x_last : u_last u <= l_last (y_log (w_store w))
}.
Definition gone (w : ws) (G : list (list record)) : Prop :=
  (exists G2, G = map sing (w_held w) ++ G2) /\ exists u, nth_error (y_subs (w_store w)) relay = Some u
    /\ match u_phase u with PLeave _ _ | PDone | PGone => True | _ => False end.

(** Something committed comes to a live subscriber that nothing disturbs, and leaves
    the way only when taken by it. *)
Lemma coming_exact m y l y' i qs u u' : asks_for qs -> In None qs -> ystep m y l = Some y' ->
  nth_error (y_subs y) i = Some u -> nth_error (y_subs y') i = Some u' -> change m y i u l u' ->
  (match l with YAccept k => k = 0%nat | _ => True end) -> calm i l -> good i qs y u -> u_phase u = PLive ->
  (forall ok, l <> YWork i ok) ->
  inflight i y' u' = inflight i y u ++ match l with YCommit rs => rs | _ => [] end.
Proof.
  intros AF NO H Hi Hi' C IT K (F & _ & Rg) P NW. pose proof (ystep_env _ _ _ _ H) as E.
  assert (RA : In i (b_all (y_b y))).
  { unfold reg_ok in Rg. rewrite P in Rg. exact (Rg None NO). }
  destruct (change_buf _ _ _ _ _ _ C) as [[B1 B2]|[(t & r & ts & -> & B2 & B3 & B3' & B4)|(r & ok & -> & B)]].
  3:{ exfalso. eapply NW; eauto. }
  2:{ inversion E; subst; try contradiction. rewrite H1 in B3. injection B3 as -> ->.
      destruct (now_for_served (t_id t) qs AF y y' t r ts H1 B3' (f_now _ _ _ _ F _ _ H1) H3) as [K' _].
      destruct (K' eq_refl) as [K1 K2]. unfold inflight. rewrite B4, K2, K1, H5, H6, app_nil_r. now rewrite <- app_assoc. }
  inversion E; subst; clear E; unfold inflight; rewrite B1.
  - unfold now_for. rewrite H2, H3, H4. destruct l; try contradiction; now rewrite app_nil_r.
  - unfold now_for. rewrite H2, H3, H4, concat_app. cbn. now rewrite app_nil_r, <- !app_assoc.
  - unfold now_for. now rewrite H1, H2, H3, app_nil_r.
  - unfold now_for. pose proof (concat_accept _ _ _ _ IT H0) as K1. rewrite H2, H3, H4, <- K1, app_nil_r, <- !app_assoc. reflexivity.
  - destruct (inflight_take i y y' r u u' H0 H1 H3 H4 B1) as [I I']. unfold inflight in I, I'. rewrite B1 in I. rewrite I, I', app_nil_r.
    destruct (targets_in i r (y_b y) (f_wf _ _ _ _ F)) as (_ & T2 & _).
    assert (X : existsb (has_id i) (targets r (y_b y)) = true).
    { apply existsb_has. left. apply T2. exact RA. }
    now rewrite X.
  - destruct (now_for_served i qs AF y y' t r ts H0 H1 (f_now _ _ _ _ F _ _ H0) H2) as [_ K'].
    rewrite K', H4, H5, app_nil_r; auto.
  - destruct (now_for_served i qs AF y y' t r ts H0 H1 (f_now _ _ _ _ F _ _ H0) H2) as [_ K'].
    rewrite K', H4, H5, app_nil_r; auto.
  - unfold now_for. now rewrite H3, H4, H5, app_nil_r.
  - unfold now_for. now rewrite H3, H4, H5, app_nil_r.
Qed.

Lemma all_shape : asks_for [None].
Proof. now left. Qed.

Lemma seen_in_turn m w l w' : link_step lk m w l = Some w' -> l <> Relay -> in_turn (seen_as l).
Proof.
  intros H N k I. destruct l as [l|l|]; [| |congruence].
  - destruct l; cbn in I; try contradiction.
    + apply in_map_iff in I as (r & I & _). discriminate.
    + destruct I as [I|[]]. discriminate.
  - destruct I as [->|[]]. discriminate.
Qed.

Lemma change_live m y i u l u' : change m y i u l u' -> u_phase u = PLive ->
  u_phase u' = PLive \/ l = YQuit i /\ (exists qs, u_phase u' = PLeave qs true) \/ l = YWork i false.
Proof.
  intros C P. destruct C; cbn; auto; try congruence.
  - destruct (_ <=? _); cbn; auto. destruct ok; cbn; auto.
  - right. left. eauto.
Qed.

Lemma change_gone m y i u l u' : change m y i u l u' ->
  match u_phase u with PLeave _ _ | PDone | PGone => True | _ => False end ->
  match u_phase u' with PLeave _ _ | PDone | PGone => True | _ => False end.
Proof.
  intros C P. destruct C; cbn; auto; try (rewrite H in P; contradiction); auto. destruct fin; exact Logic.I.
Qed.

Lemma strong_step m w l w' G : link_step lk m w l = Some w' ->
  (match l with AtStore x => (match x with YAccept k => k = 0%nat | _ => True end) /\ calm relay x | _ => True end) ->
  (exists u, exact_for w G u) \/ gone w G ->
  exists gl G', yrun ghost_mode (ghost (y_log (w_store w)) G (w_api w)) gl
                   = Some (ghost (y_log (w_store w')) G' (w_api w'))
    /\ ((exists u', exact_for w' G' u') \/ gone w' G') /\ tr [l] gl /\ in_turn gl.
Proof.
  intros H SC K.
  assert (D : l = Relay \/ l <> Relay) by (destruct l; auto; right; discriminate). destruct D as [->|NR].
  - destruct (ghost_relay _ _ _ G H) as (r & E1 & E3 & KR).
    assert (T : tr [Relay] [YAccept 0]) by (constructor; constructor).
    assert (IT : in_turn [YAccept 0]) by (intros k [I|[]]; now injection I).
    destruct K as [[u [X1 X2 X3 X4 X5 X6]]|[[G2 HG] (u & R & GN)]].
    + exists [YAccept 0], (drop_nth 0 G). rewrite E1 in X4. cbn in X4.
      split; [apply KR; rewrite X4; reflexivity|]. split; [left; exists u|split; auto].
      constructor; rewrite ?E3; auto. rewrite X4. reflexivity.
    + exists [YAccept 0], (drop_nth 0 G). rewrite E1 in HG. cbn in HG.
      split; [apply KR; rewrite HG; reflexivity|]. split; [right|split; auto].
      split; [exists G2; rewrite HG; reflexivity|]. exists u. rewrite E3. auto.
  - pose proof (ghost_other _ _ _ _ G NR H) as KO.
    assert (T : tr [l] (seen_as l)) by (rewrite <- (app_nil_r (seen_as l)); constructor; auto; constructor).
    exists (seen_as l), (G ++ map sing (added l)). split; [exact KO|].
    split; [|split; [exact T|eapply seen_in_turn; eauto]].
    destruct (link_store_step _ _ _ _ H) as [(x & -> & St & _ & HD)|(ES & [->|(x & -> & _ & EH & _)])]; [|congruence|].
    + destruct SC as [IT CM]. destruct K as [[u [X1 X2 X3 X4 X5 X6]]|([G2 HG] & u & R & GN)].
      * destruct (step_good _ _ _ _ _ _ _ all_shape St IT CM X1 X3) as (u' & R' & Ch & G').
        destruct (ystep_log _ _ _ _ St (f_sorted _ _ _ _ (proj1 X3))) as [SL LL].
        assert (LM : l_last (y_log (w_store w)) <= l_last (y_log (w_store w'))) by (destruct LL; lia).
        destruct HD as [[EH NW]|(ok & -> & EH)].
        -- pose proof (coming_exact _ _ _ _ _ _ _ _ all_shape (or_introl eq_refl) St X1 R' Ch IT CM X3 X2 NW) as CE.
           assert (EL : u_last u' = u_last u).
           { destruct (change_last _ _ _ _ _ _ Ch) as [E|[ok E]]; auto; [unfold settled; now rewrite X2|]. exfalso. eapply NW; eauto. }
           destruct (change_live _ _ _ _ _ _ Ch X2) as [P'|[(-> & qs & P')| -> ]].
           ++ left. exists u'. constructor; auto; rewrite ?EL; try lia.
              ** subst G. rewrite <- map_app, <- app_assoc. rewrite EH. unfold coming. rewrite CE. reflexivity.
              ** intros r Hr. unfold coming in Hr. rewrite CE in Hr. apply in_app_iff in Hr as [Hr|Hr]; [auto|].
                 destruct x as [rs|x|k| |t|t|j|j gg|j fail|j ok| j|j ok|j|j|j| |]; try destruct Hr.
                 apply commit_inv in St as (Gr & _ & _). destruct (grows_spec _ _ Gr) as (_ & B & _). pose proof (B r Hr). lia.
           ++ right. split; [|exists u'; split; auto; now rewrite P'].
              exists (map sing (coming (w_store w) u)). cbn [added map]. rewrite app_nil_r, X4, EH. apply map_app.
           ++ exfalso. eapply NW; eauto.
        -- cbn [added map] in *. rewrite app_nil_r in *. unfold next_to_relay in EH. rewrite X1 in EH.
           inversion Ch; subst; try (match goal with B : touches _ _ = false |- _ => cbn in B; discriminate end);
             try (match goal with B : _ \/ _ |- _ => destruct B as [B|[B|(? & B & _)]]; discriminate end).
           match goal with B : u_buf u = _ :: _ |- _ => rename B into UB end. rewrite UB in EH.
           assert (EC : coming (w_store w) u = r :: coming (w_store w') (with_buf rest u)).
           { unfold coming, inflight. rewrite UB. pose proof (ystep_env _ _ _ _ St) as En. inversion En; subst; try contradiction.
          unfold now_for. cbn. repeat match goal with Q : _ (w_store w') = _ (w_store w) |- _ => rewrite Q; clear Q end. reflexivity. }
           pose proof (X5 r ltac:(rewrite EC; now left)) as Lr.
           assert (NL : (r_gsn r <=? u_last u) = false) by (apply N.leb_gt; lia). rewrite NL in *.
           destruct ok.
           ++ left. exists (hand r (with_buf rest u)). constructor; auto.
              ** rewrite EC, EH, <- app_assoc. reflexivity.
              ** intros x Hx. cbn. pose proof (f_incr _ _ _ _ (proj1 X3)) as INC. unfold coming in EC. rewrite EC in INC.
                 apply incr_cons_inv in INC as [_ INC]. apply INC. exact Hx.
              ** cbn. pose proof (f_le _ _ _ _ (proj1 X3) r) as LE. unfold coming in EC. rewrite EC in LE. specialize (LE (or_introl eq_refl)). lia.
           ++ right. rewrite app_nil_r in EH. split; [|eexists; split; [exact R'|exact Logic.I]].
              exists (map sing (coming (w_store w) u)). rewrite EH. apply map_app.
      * right. destruct (ystep_sub _ _ _ _ _ _ St R) as (u' & R' & Ch). pose proof (change_gone _ _ _ _ _ _ Ch GN) as GN'.
        split; [|exists u'; auto]. destruct HD as [[EH NW]|(ok & -> & EH)].
        -- exists (G2 ++ map sing (added (AtStore x))). now rewrite HG, EH, app_assoc.
        -- inversion Ch; subst; try (match goal with B : touches _ _ = false |- _ => cbn in B; discriminate end);
             try (match goal with B : _ \/ _ |- _ => destruct B as [B|[B|(? & B & _)]]; discriminate end).
           match goal with B : u_phase u = PLive |- _ => rewrite B in GN; contradiction end.
    + cbn [added map]. rewrite app_nil_r. destruct K as [[u [X1 X2 X3 X4 X5 X6]]|([G2 HG] & u & R & GN)].
      * left. exists u. constructor; rewrite ?ES, ?EH; auto.
      * right. split; [exists G2; now rewrite EH|]. exists u. rewrite ES. auto.
Qed.

Lemma strong_run m ls : forall w w' G, link_run lk m w ls = Some w' -> ordered m (w_store w) (store_steps ls) ->
  undisturbed relay (store_steps ls) -> (exists u, exact_for w G u) \/ gone w G ->
  exists gl G', yrun ghost_mode (ghost (y_log (w_store w)) G (w_api w)) gl
                   = Some (ghost (y_log (w_store w')) G' (w_api w'))
    /\ ((exists u', exact_for w' G' u') \/ gone w' G') /\ tr ls gl /\ in_turn gl.
Proof.
  induction ls as [|l ls IH]; cbn [link_run]; intros w w' G H O U K.
  - injection H as <-. exists [], G. split; auto. split; auto. split; [constructor|]. intros k [].
  - destruct (link_step lk m w l) as [w1|] eqn:E; [|discriminate].
    assert (X : (match l with AtStore x => (match x with YAccept k => k = 0%nat | _ => True end) /\ calm relay x | _ => True end)
                /\ ordered m (w_store w1) (store_steps ls) /\ undisturbed relay (store_steps ls)).
    { destruct (link_store_step _ _ _ _ E) as [(x & -> & St & _)|(ES & [->|(x & -> & _)])]; cbn [store_steps] in *.
      - apply calm_cons in U as [K1 U]. destruct (ordered_cons _ _ _ _ _ St O) as [O1 O2]. auto.
      - rewrite ES. auto.
      - rewrite ES. auto. }
    destruct X as (SC & O1 & U1).
    destruct (strong_step _ _ _ _ _ E SC K) as (g1 & G1 & R1 & K1 & T1 & I1).
    destruct (IH _ _ _ H O1 U1 K1) as (g2 & G2 & R2 & K2 & T2 & I2).
    exists (g1 ++ g2), G2. split; [|split; [auto|split]].
    + rewrite run_app, R1. exact R2.
    + apply (tr_app [l] ls); auto.
    + intros k I. apply in_app_iff in I as [I|I]; auto.
Qed.

(** * The beginning *)
Lemma concat_sing l : concat (map sing l) = l.
Proof. induction l; cbn; congruence. Qed.

Definition ghost0 (y : sys) (u : sub) (subs : list (list query * nat)) : sys :=
  ghost (y_log y) (map sing (coming y u)) (sys_init subs).

Lemma subs_init subs i qs cap : nth_error subs i = Some (qs, cap) ->
  nth_error (y_subs (sys_init subs)) i = Some (new_sub qs cap).
Proof. intros H. cbn. now rewrite nth_error_map, H. Qed.

Lemma ghost0_good y u subs i qs cap : good relay [None] y u -> good i qs (ghost0 y u subs) (new_sub qs cap).
Proof.
  intros ([F1 F3 F4 F5 F6 F7 F8 F9 F10] & _ & _). split; [|split; exact I].
  assert (IE : inflight i (ghost0 y u subs) (new_sub qs cap) = coming y u).
  { unfold inflight, now_for, ghost0. cbn. apply concat_sing. }
  constructor; cbn; try (intros; contradiction); try discriminate; auto.
  - split; constructor.
  - change (gsn_increasing (inflight i (ghost0 y u subs) (new_sub qs cap))). rewrite IE. exact F8.
  - intros r Hr. change (In r (inflight i (ghost0 y u subs) (new_sub qs cap))) in Hr. rewrite IE in Hr. auto.
Qed.

(** A subscription started with Start has no last number before its first record. *)
Lemma change_zero m y i u l u' : change m y i u l u' -> (forall g, l <> YStartFrom i g) ->
  u_got u' = [] -> (u_got u = [] -> u_last u = 0) -> u_last u' = 0.
Proof.
  intros C NS G Z. destruct C; cbn in *; auto.
  - exfalso. eapply NS; eauto.
  - destruct (gathered chans); [destruct second|]; cbn in *; auto.
  - exfalso. destruct ok; [destruct rest; [destruct second|]|destruct second]; cbn in G; destruct (u_got u); discriminate.
  - destruct (_ <=? _); cbn in *; auto. exfalso. destruct ok; cbn in G; destruct (u_got u); discriminate.
Qed.
Lemma run_zero m ls : forall y y' i u u', yrun m y ls = Some y' -> (forall g, ~ In (YStartFrom i g) ls) ->
  nth_error (y_subs y) i = Some u -> nth_error (y_subs y') i = Some u' ->
  (u_got u = [] -> u_last u = 0) -> u_got u' = [] -> u_last u' = 0.
Proof.
  induction ls as [|l ls IH]; cbn [yrun]; intros y y' i u u' H NS Hi Hi' Z G.
  - injection H as <-. assert (u = u') by congruence. subst. auto.
  - destruct (ystep m y l) as [y1|] eqn:E; [|discriminate].
    destruct (ystep_sub _ _ _ _ _ _ E Hi) as (u1 & Hi1 & C).
    eapply IH; eauto.
    + intros g I. apply (NS g). now right.
    + intros G1. eapply change_zero; eauto. intros g ->. apply (NS g). now left.
Qed.

Lemma run_positive m ls : forall y y' i u u', yrun m y ls = Some y' ->
  nth_error (y_subs y) i = Some u -> nth_error (y_subs y') i = Some u' ->
  (forall r, In r (inflight i y u) -> 0 < r_gsn r) -> forall r, In r (inflight i y' u') -> 0 < r_gsn r.
Proof.
  induction ls as [|l ls IH]; cbn [yrun]; intros y y' i u u' H Hi Hi' Z.
  - injection H as <-. assert (u = u') by congruence. subst. auto.
  - destruct (ystep m y l) as [y1|] eqn:E; [|discriminate].
    destruct (ystep_sub _ _ _ _ _ _ E Hi) as (u1 & Hi1 & C).
    eapply IH; eauto. intros r Hr. destruct (coming_shrinks _ _ _ _ _ _ _ _ E Hi C Hr) as [?|(rs & -> & Hrs)]; auto.
    apply commit_inv in E as (Gr & _ & _). destruct (grows_spec _ _ Gr) as (_ & B & _). pose proof (B r Hrs). lia.
Qed.

Lemma relay_init subs : nth_error (y_subs (sys_init (relay_sub :: subs))) relay = Some (new_sub [None] sub_buffer).
Proof. reflexivity. Qed.

Lemma live_weak y0 subs u : nth_error (y_subs y0) relay = Some u -> placed u ->
  weak (link_new y0 subs) (map sing (coming y0 u)) u.
Proof.
  intros Hu P. constructor; cbn; auto.
  - contradiction.
  - apply incr_nil.
  - intros r Hr _. now apply in_map.
Qed.

Lemma live_exact m i0 y ls y0 subs u qs0 cap0 : qs0 = [None] -> i0 = relay ->
  nth_error (y_subs y) i0 = Some (new_sub qs0 cap0) -> good i0 qs0 y (new_sub qs0 cap0) ->
  (forall r, In r (inflight i0 y (new_sub qs0 cap0)) -> 0 < r_gsn r) ->
  yrun m y ls = Some y0 -> (forall g, ~ In (YStartFrom i0 g) ls) ->
  nth_error (y_subs y0) i0 = Some u -> u_phase u = PLive -> u_got u = [] ->
  ordered m y ls -> undisturbed i0 ls ->
  exact_for (link_new y0 subs) (map sing (coming y0 u)) u.
Proof.
  intros -> -> H0 G0 PO R NS Hu P G O U.
  destruct (run_good _ _ _ _ all_shape _ _ _ R O U H0 G0) as (u' & Hu' & G').
  assert (u' = u) by congruence. subst u'.
  assert (Z : u_last u = 0) by (eapply (run_zero _ _ _ _ _ _ _ R NS H0 Hu); auto).
  constructor; cbn; auto.
  - rewrite Z. eapply run_positive; eauto.
  - rewrite Z. lia.
Qed.

(** * The clients *)
Lemma link_in_order m y0 u0 subs ls w i qs cap u : log_sorted (y_log y0) -> weak (link_new y0 subs) (map sing (coming y0 u0)) u0 ->
  (forall g, ~ In (YStartFrom relay g) (store_steps ls)) ->
  link_run lk m (link_new y0 subs) ls = Some w -> nth_error subs i = Some (qs, cap) -> asks_for qs -> NoDup qs ->
  l_last (y_log (w_store w)) < max64 -> (forall g, In (YStartFrom i g) (api_steps ls) -> g < max64) ->
  nth_error (y_subs (w_api w)) i = Some u ->
  gsn_increasing (u_got u) /\ (forall g, In (YStartFrom i g) (api_steps ls) -> forall r, In r (u_got u) -> g <= r_gsn r).
Proof.
  intros S0 K NS R Hc AF ND LM GM Hu.
  destruct (weak_run _ _ _ _ _ _ R NS K) as (gl & G' & u' & R' & _ & T). cbn [link_new w_store w_api] in R'.
  destruct (run_ordered_from _ _ _ _ i qs cap u R' S0 (subs_init _ _ _ _ Hc) AF ND LM) as [A B]; auto.
  - intros g Hg. apply GM. eapply tr_start; eauto.
  - split; auto. intros g Hg. apply B. eapply tr_start_back; eauto.
Qed.

Lemma link_run_app m a : forall w b, link_run lk m w (a ++ b) = match link_run lk m w a with Some w1 => link_run lk m w1 b | None => None end.
Proof. induction a as [|l a IH]; cbn; intros w b; [reflexivity|]. destruct (link_step lk m w l); auto. Qed.
Lemma store_steps_app a b : store_steps (a ++ b) = store_steps a ++ store_steps b.
Proof. induction a as [|[]]; cbn; congruence. Qed.
Lemma api_steps_app a b : api_steps (a ++ b) = api_steps a ++ api_steps b.
Proof. induction a as [|[]]; cbn; congruence. Qed.

Lemma run_store m ls : forall w w', link_run lk m w ls = Some w' -> yrun m (w_store w) (store_steps ls) = Some (w_store w').
Proof.
  induction ls as [|l ls IH]; cbn [link_run]; intros w w' H; [now injection H as <-|].
  destruct (link_step lk m w l) as [w1|] eqn:E; [|discriminate].
  destruct (link_store_step _ _ _ _ E) as [(x & -> & St & _)|(ES & [->|(x & -> & _)])]; cbn [store_steps yrun].
  - rewrite St. auto.
  - rewrite <- ES. auto.
  - rewrite <- ES. auto.
Qed.

Lemma store_not_started m ls w w' u : link_run lk m w ls = Some w' -> nth_error (y_subs (w_store w)) relay = Some u ->
  u_phase u <> PInit -> forall g, ~ In (YStartFrom relay g) (store_steps ls).
Proof.
  intros R Hu P g I. apply run_store in R.
  assert (X : exists u', nth_error (y_subs (w_store w')) relay = Some u').
  { assert (G : forall ls y y' v, yrun m y ls = Some y' -> nth_error (y_subs y) relay = Some v -> exists v', nth_error (y_subs y') relay = Some v').
    { clear. induction ls as [|l ls IH]; cbn [yrun]; intros y y' v H Hv; [injection H as <-; eauto|].
      destruct (ystep m y l) as [y1|] eqn:E; [|discriminate]. destruct (ystep_sub _ _ _ _ _ _ E Hv) as (v1 & Hv1 & _). eauto. }
    eauto. }
  destruct X as [u' Hu']. eapply (run_started _ _ _ _ _ _ _ R Hu Hu' P _ I). right. eauto.
Qed.

Lemma rest_quiet w G u : (exists u', exact_for w G u') \/ gone w G -> relaying w -> at_rest w u ->
  quiet (ghost (y_log (w_store w)) G (w_api w)) u.
Proof.
  intros K (v & Hv & Pv) (A1 & A2 & A3 & A4 & A5 & A6 & A7 & A8).
  destruct K as [[u' [X1 X2 X3 X4 X5 X6]]|(_ & u' & X1 & X2)].
  - split; [|split; [exact A6|split; [exact A7|exact A8]]]. cbn. rewrite X4. unfold coming, inflight, now_for.
    rewrite A1, A2, A3, A5, (A4 _ X1). reflexivity.
  - assert (u' = v) by congruence. subst. rewrite Pv in X2. contradiction.
Qed.

Section Complete.
Variables (m : mode) (y0 : sys) (subs : list (list query * nat)) (u0 : sub).
Hypothesis K0 : exact_for (link_new y0 subs) (map sing (coming y0 u0)) u0.

Lemma link_complete ls1 ls2 i q cap g w1 w u : link_run lk m (link_new y0 subs) ls1 = Some w1 ->
  link_run lk m (link_new y0 subs) (ls1 ++ AtApi (YStartFrom i g) :: ls2) = Some w ->
  ordered m y0 (store_steps (ls1 ++ AtApi (YStartFrom i g) :: ls2)) ->
  undisturbed relay (store_steps (ls1 ++ AtApi (YStartFrom i g) :: ls2)) ->
  undisturbed i (api_steps (ls1 ++ AtApi (YStartFrom i g) :: ls2)) ->
  nth_error subs i = Some ([q], cap) -> g < max64 -> l_last (y_log (w_store w)) < max64 ->
  relaying w -> nth_error (y_subs (w_api w)) i = Some u -> u_phase u = PLive -> at_rest w u ->
  forall r, In r (l_recs (y_log (w_store w))) -> q_match q r = true ->
    g < r_gsn r \/ In r (l_recs (y_log (w_store w1))) /\ r_gsn r = g -> In r (u_got u).
Proof.
  intros R1 R O1 U1 UC Hc GM LM RL Hu P AR r Hr M W.
  rewrite link_run_app, R1 in R. rewrite store_steps_app in O1, U1. apply undisturbed_app in U1 as [U1 U2].
  destruct (ordered_app _ _ _ _ _ (run_store _ _ _ _ R1) O1) as [O2 O3].
  destruct (strong_run _ _ _ _ _ R1 O2 U1 (or_introl (ex_intro _ u0 K0))) as (g1 & G1 & RG1 & K1 & T1 & I1).
  cbn [link_new w_store w_api] in RG1.
  destruct (strong_run _ _ _ _ _ R O3 U2 K1) as (g2 & G2 & RG2 & K2 & T2 & I2).
  assert (E : exists g2', g2 = YStartFrom i g :: g2').
  { inversion T2; subst. cbn. eauto. }
  destruct E as [g2' ->].
  assert (TT : tr (ls1 ++ AtApi (YStartFrom i g) :: ls2) (g1 ++ YStartFrom i g :: g2')) by (apply tr_app; auto).
  assert (H0 : nth_error (y_subs (ghost0 y0 u0 subs)) i = Some (new_sub [q] cap)) by (apply (subs_init subs); auto).
  assert (GG : good i [q] (ghost0 y0 u0 subs) (new_sub [q] cap)).
  { apply ghost0_good. apply (x_good _ _ _ K0). }
  assert (RG : yrun ghost_mode (ghost0 y0 u0 subs) (g1 ++ YStartFrom i g :: g2') = Some (ghost (y_log (w_store w)) G2 (w_api w))).
  { rewrite run_app. unfold ghost0. rewrite RG1. exact RG2. }
  eapply (run_complete_from _ _ _ _ _ _ _ _ _ _ u H0 GG RG1 RG); auto.
  - right. intros k I. apply in_app_iff in I as [I|I]; auto.
  - eapply tr_undisturbed; eauto.
  - apply rest_quiet; auto.
Qed.

Lemma link_live_complete ls1 ls2 i qs cap w1 u1 w u : link_run lk m (link_new y0 subs) ls1 = Some w1 ->
  link_run lk m w1 ls2 = Some w ->
  ordered m y0 (store_steps (ls1 ++ ls2)) -> undisturbed relay (store_steps (ls1 ++ ls2)) ->
  undisturbed i (api_steps (ls1 ++ ls2)) ->
  nth_error subs i = Some (qs, cap) -> asks_for qs -> l_last (y_log (w_store w)) < max64 ->
  nth_error (y_subs (w_api w1)) i = Some u1 -> u_phase u1 = PLive ->
  relaying w -> nth_error (y_subs (w_api w)) i = Some u -> u_phase u = PLive -> at_rest w u ->
  forall r, In r (l_recs (y_log (w_store w))) -> asked qs r ->
    l_last (y_log (w_store w1)) < r_gsn r -> u_last u1 < r_gsn r -> In r (u_got u).
Proof.
  intros R1 R O1 U1 UC Hc AF LM Hu1 P1 RL Hu P AR r Hr M W1 W2.
  rewrite store_steps_app in O1, U1. apply undisturbed_app in U1 as [U1 U2].
  destruct (ordered_app _ _ _ _ _ (run_store _ _ _ _ R1) O1) as [O2 O3].
  destruct (strong_run _ _ _ _ _ R1 O2 U1 (or_introl (ex_intro _ u0 K0))) as (g1 & G1 & RG1 & K1 & T1 & I1).
  cbn [link_new w_store w_api] in RG1.
  destruct (strong_run _ _ _ _ _ R O3 U2 K1) as (g2 & G2 & RG2 & K2 & T2 & I2).
  assert (TT : tr (ls1 ++ ls2) (g1 ++ g2)) by (apply tr_app; auto).
  assert (H0 : nth_error (y_subs (ghost0 y0 u0 subs)) i = Some (new_sub qs cap)) by (apply (subs_init subs); auto).
  assert (GG : good i qs (ghost0 y0 u0 subs) (new_sub qs cap)).
  { apply ghost0_good. apply (x_good _ _ _ K0). }
  eapply (run_live_complete_from _ _ _ _ _ _ _ _ u1 _ u H0 GG RG1 RG2); auto.
  - right. intros k I. apply in_app_iff in I as [I|I]; auto.
  - eapply tr_undisturbed; eauto.
  - apply rest_quiet; auto.
Qed.
End Complete.

(** * Cut off *)
Lemma cut_off_step m w l w' : link_step lk m w l = Some w' -> cut_off w -> cut_off w'.
Proof.
  intros H (u & R & P & B & NA & NT & NN & Hd).
  destruct (link_store_step _ _ _ _ H) as [(x & -> & St & EA & HD)|(ES & [->|(x & -> & _ & EH & _)])].
  - destruct (ystep_sub _ _ _ _ _ _ St R) as (u' & R' & Ch). exists u'. split; auto.
    split; [apply (change_settled _ _ _ _ _ _ Ch P)|].
    pose proof (ystep_env _ _ _ _ St) as E.
    assert (NR : forall q, ~ registered relay (y_b (w_store w)) q) by (intros [t|]; cbn; auto).
    assert (NR' : forall q, ~ registered relay (y_b (w_store w')) q).
    { intros q. inversion E; subst; match goal with Hb : y_b (w_store w') = _ |- _ => rewrite Hb end; auto.
      - intros K. destruct t as [j|j].
        + eapply NR. exact (unregister_in relay None j _ q K).
        + eapply NR. exact (unregister_in relay (Some (r_atype r)) j _ q K).
      - intros K. apply register_in in K as [K|[-> ->]]; [eapply NR; eauto|].
        assert (u0 = u) by congruence. subst u0. match goal with Q : u_phase u = _ |- _ => rewrite Q in P end. contradiction.
      - intros K. apply unregister_in in K. eapply NR; eauto. }
    split; [|split; [exact (NR' None)|split; [exact (fun t => NR' (Some t))|split]]].
    + destruct (change_buf _ _ _ _ _ _ Ch) as [[B1 _]|[(t & r & ts & -> & B2 & B3 & B3' & B4)|(r & ok & -> & B1)]].
      * congruence.
      * exfalso. apply andb_true_iff in B3' as [B3' _]. apply existsb_exists in B3' as (t' & T1 & T2). apply t_eqb_eq in T2. subst t'.
        eapply NN; eauto.
      * rewrite B in B1. discriminate.
    + intros r ts t En It. inversion E; subst;
        try (match goal with Hn : y_now (w_store w') = y_now (w_store w) |- _ => rewrite Hn in En; eapply NN; eauto end; fail).
      * match goal with Hn : y_now (w_store w') = match targets ?a ?b with _ => _ end |- _ => rewrite Hn in En;
          assert (X : r = a /\ ts = targets a b) by (destruct (targets a b); [discriminate|]; injection En as <- <-; auto) end.
        destruct X as [-> ->]. unfold targets in It. apply in_app_iff in It as [It|It]; apply in_map_iff in It as (j & <- & J); cbn; intros ->.
        -- exact (NA J).
        -- unfold type_subs in J. apply in_map_iff in J as ([a b] & Eb & J). cbn in Eb. subst b. apply filter_In in J as [J _]. exact (NT _ J).
      * match goal with Hn : y_now (w_store w') = match remove_target ?a ?b with _ => _ end |- _ => rewrite Hn in En;
          assert (X : ts = remove_target a b) by (destruct (remove_target a b); [discriminate|]; injection En as _ <-; auto) end.
        subst ts. apply remove_target_in in It as [It _]. eapply NN; eauto.
      * match goal with Hn : y_now (w_store w') = match remove_target ?a ?b with _ => _ end |- _ => rewrite Hn in En;
          assert (X : ts = remove_target a b) by (destruct (remove_target a b); [discriminate|]; injection En as _ <-; auto) end.
        subst ts. apply remove_target_in in It as [It _]. eapply NN; eauto.
    + destruct HD as [[EH _]|(ok & _ & EH)]; [congruence|]. rewrite EH, Hd. unfold next_to_relay. rewrite R, B. now destruct ok.
  - cbn [link_step] in H. rewrite Hd in H. discriminate.
  - exists u. rewrite ES, EH. auto 10.
Qed.

Lemma inflight_has i w u r : In r (inflight i (ghost (y_log (w_store w)) [] (w_api w)) u) -> api_has w u r.
Proof.
  unfold inflight, api_has, now_for. cbn. rewrite app_nil_r, !in_app_iff. intros [H|[H|H]]; auto.
  destruct (y_now (w_api w)) as [[r' ts]|]; [|destruct H]. destruct (existsb _ _); [|destruct H]. destruct H as [->|[]]. eauto.
Qed.

Lemma change_takes m y i u l u' : change m y i u l u' -> settled u ->
  forall r, In r (u_got u') -> In r (u_got u) \/ In r (u_buf u).
Proof.
  unfold settled. intros C S r. destruct C; cbn; auto; try (rewrite H in S; contradiction).
  destruct (_ <=? _); cbn; auto. rewrite H0. destruct ok; cbn; rewrite in_app_iff; cbn; tauto.
Qed.

Lemma cut_off_run m ls : forall w w' i u u', link_run lk m w ls = Some w' -> cut_off w ->
  nth_error (y_subs (w_api w)) i = Some u -> settled u -> nth_error (y_subs (w_api w')) i = Some u' ->
  forall r, In r (u_got u') -> In r (u_got u) \/ In r (inflight i (ghost (y_log (w_store w)) [] (w_api w)) u).
Proof.
  induction ls as [|l ls IH]; cbn [link_run]; intros w w' i u u' H CO Hu S Hu' r Hr.
  - injection H as <-. left. congruence.
  - destruct (link_step lk m w l) as [w1|] eqn:E; [|discriminate].
    pose proof (cut_off_step _ _ _ _ E CO) as CO1.
    destruct (link_store_step _ _ _ _ E) as [(x & -> & _ & EA & _)|(ES & [->|(x & -> & A & _ & St)])].
    + rewrite <- EA in Hu.
      destruct (IH _ _ _ _ _ H CO1 Hu S Hu' r Hr) as [K|K]; auto. right. rewrite EA in K. exact K.
    + destruct CO as (v & _ & _ & _ & _ & _ & _ & Hd). cbn [link_step] in E. rewrite Hd in E. discriminate.
    + destruct (ghost_step _ ghost_mode (y_log (w_store w)) (y_pend (w_store w)) [] _ _ _ eq_refl A St) as (_ & _ & K).
      destruct (ystep_sub _ _ _ _ _ _ K Hu) as (u1 & Hu1 & Ch).
      destruct (IH _ _ _ _ _ H CO1 Hu1 (change_settled _ _ _ _ _ _ Ch S) Hu' r Hr) as [I|I].
      * destruct (change_takes _ _ _ _ _ _ Ch S r I) as [?|?]; auto. right. unfold inflight. apply in_app_iff. auto.
      * rewrite ES in I. destruct (coming_shrinks _ _ _ _ _ _ _ _ K Hu Ch I) as [?|(rs & -> & _)]; auto. contradiction.
Qed.

Lemma cut_off_clients m ls w w' i u u' : link_run lk m w ls = Some w' -> cut_off w ->
  nth_error (y_subs (w_api w)) i = Some u -> u_phase u = PLive -> nth_error (y_subs (w_api w')) i = Some u' ->
  forall r, In r (u_got u') -> In r (u_got u) \/ api_has w u r.
Proof.
  intros H CO Hu P Hu' r Hr. assert (S : settled u) by (unfold settled; now rewrite P).
  destruct (cut_off_run _ _ _ _ _ _ _ H CO Hu S Hu' r Hr) as [K|K]; auto. right. eapply inflight_has; eauto.
Qed.
End Link.

(** * The WebSocket API and the gRPC server *)
Lemma client_init clients i qs : nth_error clients i = Some qs -> nth_error (map client clients) i = Some (qs, sub_buffer).
Proof. intros H. now rewrite nth_error_map, H. Qed.

Lemma opened_sorted m subs ls0 y0 : opened m subs ls0 y0 -> log_sorted (y_log y0).
Proof. intros (R0 & _). now destruct (yrun_log _ _ _ _ R0 (log_sorted_init _)) as [S0 _]. Qed.

Lemma opened_exact m subs ls0 y0 subs2 : opened m subs ls0 y0 ->
  m_locked m = true \/ in_turn ls0 -> undisturbed relay ls0 ->
  exists u, exact_for (link_new y0 subs2) (map sing (coming y0 u)) u.
Proof.
  intros (R & NS & u & Hu & P & G) O U. exists u.
  destruct (good_init relay [None] sub_buffer (relay_sub :: subs) eq_refl) as [H0 G0].
  apply (ordered_init m (relay_sub :: subs)) in O.
  eapply (live_exact m relay _ ls0); eauto. cbn. intros ? [].
Qed.

Lemma ordered_split m subs ls0 y0 ls : opened m subs ls0 y0 -> m_locked m = true \/ in_turn (ls0 ++ ls) ->
  (m_locked m = true \/ in_turn ls0) /\ ordered m y0 ls.
Proof.
  intros (R & _) O. assert (O' := O). apply (ordered_init m (relay_sub :: subs)) in O'.
  destruct (ordered_app _ _ _ _ _ R O') as [_ O2]. split; auto. destruct O as [O|O]; auto. right. intros k I. apply O. apply in_app_iff. auto.
Qed.

Lemma ws_in_order m subs ls0 y0 clients ls w i qs u : opened m subs ls0 y0 ->
  ws_run m (ws_new y0 clients) ls = Some w -> nth_error clients i = Some qs -> asks_for qs -> NoDup qs ->
  l_last (y_log (w_store w)) < max64 -> (forall g, In (YStartFrom i g) (api_steps ls) -> g < max64) ->
  nth_error (y_subs (w_api w)) i = Some u ->
  gsn_increasing (u_got u) /\ (forall g, In (YStartFrom i g) (api_steps ls) -> forall r, In r (u_got u) -> g <= r_gsn r).
Proof.
  intros OP R Hc. assert (OP' := OP). destruct OP as (_ & _ & u0 & Hu0 & P0 & _).
  assert (PL : placed u0) by (unfold placed; now rewrite P0).
  eapply link_in_order; eauto using live_weak, opened_sorted, client_init.
  eapply store_not_started; eauto. congruence.
Qed.

Lemma ws_complete m subs ls0 y0 clients : opened m subs ls0 y0 ->
  forall ls1 ls2 i q g w1 w u, ws_run m (ws_new y0 clients) ls1 = Some w1 ->
  ws_run m (ws_new y0 clients) (ls1 ++ AtApi (YStartFrom i g) :: ls2) = Some w ->
  m_locked m = true \/ in_turn (ls0 ++ store_steps (ls1 ++ AtApi (YStartFrom i g) :: ls2)) ->
  undisturbed relay (ls0 ++ store_steps (ls1 ++ AtApi (YStartFrom i g) :: ls2)) ->
  undisturbed i (api_steps (ls1 ++ AtApi (YStartFrom i g) :: ls2)) ->
  nth_error clients i = Some [q] -> g < max64 -> l_last (y_log (w_store w)) < max64 ->
  relaying w -> nth_error (y_subs (w_api w)) i = Some u -> u_phase u = PLive -> at_rest w u ->
  forall r, In r (l_recs (y_log (w_store w))) -> q_match q r = true ->
    g < r_gsn r \/ In r (l_recs (y_log (w_store w1))) /\ r_gsn r = g -> In r (u_got u).
Proof.
  intros OP ls1 ls2 i q g w1 w u R1 R O U UC Hc.
  destruct (ordered_split _ _ _ _ _ OP O) as [O0 O1]. apply undisturbed_app in U as [U0 U1].
  destruct (opened_exact _ _ _ _ (map client clients) OP O0 U0) as [u0 K0].
  eapply link_complete; eauto using client_init.
Qed.

Lemma ws_live_complete m subs ls0 y0 clients : opened m subs ls0 y0 ->
  forall ls1 ls2 i qs w1 u1 w u, ws_run m (ws_new y0 clients) ls1 = Some w1 ->
  ws_run m w1 ls2 = Some w ->
  m_locked m = true \/ in_turn (ls0 ++ store_steps (ls1 ++ ls2)) ->
  undisturbed relay (ls0 ++ store_steps (ls1 ++ ls2)) ->
  undisturbed i (api_steps (ls1 ++ ls2)) ->
  nth_error clients i = Some qs -> asks_for qs -> l_last (y_log (w_store w)) < max64 ->
  nth_error (y_subs (w_api w1)) i = Some u1 -> u_phase u1 = PLive ->
  relaying w -> nth_error (y_subs (w_api w)) i = Some u -> u_phase u = PLive -> at_rest w u ->
  forall r, In r (l_recs (y_log (w_store w))) -> asked qs r ->
    l_last (y_log (w_store w1)) < r_gsn r -> u_last u1 < r_gsn r -> In r (u_got u).
Proof.
  intros OP ls1 ls2 i qs w1 u1 w u R1 R O U UC Hc.
  destruct (ordered_split _ _ _ _ _ OP O) as [O0 O1]. apply undisturbed_app in U as [U0 U1].
  destruct (opened_exact _ _ _ _ (map client clients) OP O0 U0) as [u0 K0].
  eapply link_live_complete; eauto using client_init.
Qed.
