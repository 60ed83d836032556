(** Proofs about the chat example. *)
From Coq Require Import PeanoNat.
From Verif Require Import Base Core CoreProofs SubscriptionProofs EventStoreMore Cqrs CqrsSpec CqrsProofs Text Chat ChatSpec.
Open Scope string_scope.
Open Scope N_scope.
Open Scope list_scope.

Lemma stream_inj t a b : get_stream t a = get_stream t b -> a = b.
Proof. unfold get_stream. intros H. apply append_inj in H. now apply (append_inj "!") in H. Qed.
Lemma room_user a b : get_stream "room" a <> get_stream "user" b.
Proof. unfold get_stream. cbn. discriminate. Qed.

(** * The aggregates *)
Definition ban (b : list string) (e : event) : list string :=
  match e with UserWasBannedFromRoom _ u _ _ => if existsb (String.eqb u) b then b else b ++ [u] | _ => b end.
Definition rename (n : string) (e : event) : string := match e with RoomWasOnBoarded _ _ name => name | _ => n end.
Definition opens_room (e : event) : bool := match e with RoomWasOnBoarded _ _ _ => true | _ => false end.
Definition opens_user (e : event) : bool := match e with UserWasOnBoarded _ _ => true | _ => false end.
Definition callu (n : string) (e : event) : string := match e with UserWasOnBoarded _ name => name | _ => n end.

Lemma room_fold es : forall n on b, fold_left apply es (Room n on b)
  = Room (fold_left rename es n) (on || existsb opens_room es) (fold_left ban es b).
Proof.
  induction es as [|e es IH]; intros n on b; cbn [fold_left existsb]; [now rewrite orb_false_r|].
  destruct e; cbn [apply rename ban opens_room orb]; rewrite IH; try reflexivity. now rewrite orb_true_r.
Qed.
Lemma user_fold es : forall on n, fold_left apply es (User on n) = User (on || existsb opens_user es) (fold_left callu es n).
Proof.
  induction es as [|e es IH]; intros on n; cbn [fold_left existsb]; [now rewrite orb_false_r|].
  destruct e; cbn [apply callu opens_user orb]; rewrite IH; try reflexivity. now rewrite orb_true_r.
Qed.

Lemma in_existsb u l : existsb (String.eqb u) l = true <-> In u l.
Proof.
  rewrite existsb_exists. split; [intros (x & H & E); apply String.eqb_eq in E; now subst|].
  intros H. exists u. split; [auto|apply String.eqb_refl].
Qed.
Lemma ban_in es : forall b u, In u (fold_left ban es b) <-> In u b \/ exists r why t, In (UserWasBannedFromRoom r u why t) es.
Proof.
  induction es as [|e es IH]; intros b u; cbn [fold_left].
  - split; [auto|]. intros [H|(r & why & t & [])]; auto.
  - rewrite IH. destruct e; cbn [ban]; try (split; [intros [H|(r' & why & t & H)]; [auto|right; exists r', why, t; now right] |
      intros [H|(r' & why & t & [H|H])]; [auto|discriminate|right; eauto]]).
    split.
    + intros [H|(r' & why & t & H)]; [|right; exists r', why, t; now right].
      destruct (existsb (String.eqb u0) b) eqn:X; [auto|]. apply in_app_iff in H as [H|[<-|[]]]; [auto|].
      right. exists r, reason, timeout. now left.
    + intros [H|(r' & why & t & [H|H])].
      * left. destruct (existsb _ b); [auto|apply in_app_iff; auto].
      * injection H as <- <- <- <-. left. destruct (existsb (String.eqb u0) b) eqn:X; [now apply in_existsb|apply in_app_iff; right; now left].
      * right. eauto.
Qed.

(** Replaying a history on top of a beginning of it. *)
Lemma ban_again es : forall b, (forall r u why t, In (UserWasBannedFromRoom r u why t) es -> In u b) -> fold_left ban es b = b.
Proof.
  induction es as [|e es IH]; intros b H; [reflexivity|]. cbn [fold_left].
  assert (ban b e = b) as ->.
  { destruct e; cbn; auto. assert (In u b) as X by (eapply H; now left). apply in_existsb in X. now rewrite X. }
  apply IH. intros; eapply H; right; eauto.
Qed.
Lemma rename_start es : forall a b, existsb opens_room es = true -> fold_left rename es a = fold_left rename es b.
Proof.
  induction es as [|e es IH]; intros a b; cbn; [discriminate|]. destruct e; cbn; intros H; auto.
Qed.
Lemma rename_none es : forall a, existsb opens_room es = false -> fold_left rename es a = a.
Proof. induction es as [|e es IH]; intros a; cbn; [reflexivity|]. destruct e; cbn; try discriminate; auto. Qed.
Lemma callu_start es : forall a b, existsb opens_user es = true -> fold_left callu es a = fold_left callu es b.
Proof. induction es as [|e es IH]; intros a b; cbn; [discriminate|]. destruct e; cbn; intros H; auto. Qed.
Lemma callu_none es : forall a, existsb opens_user es = false -> fold_left callu es a = a.
Proof. induction es as [|e es IH]; intros a; cbn; [reflexivity|]. destruct e; cbn; try discriminate; auto. Qed.

Lemma room_reloadable : reloadable apply new_room.
Proof.
  intros before more. unfold replay, new_room. rewrite !room_fold. cbn [orb]. rewrite !existsb_app, !fold_left_app. f_equal.
  - destruct (existsb opens_room before) eqn:X; [now rewrite (rename_start _ _ "" X)|]. now rewrite !(rename_none _ _ X).
  - destruct (existsb opens_room before); reflexivity.
  - f_equal. apply ban_again. intros r u why t H. apply ban_in. eauto.
Qed.
Lemma user_reloadable : reloadable apply new_user.
Proof.
  intros before more. unfold replay, new_user. rewrite !user_fold. cbn [orb]. rewrite !existsb_app, !fold_left_app. f_equal.
  - destruct (existsb opens_user before); reflexivity.
  - destruct (existsb opens_user before) eqn:X; [now rewrite (callu_start _ _ "" X)|]. now rewrite !(callu_none _ _ X).
Qed.

(** * One dispatch *)
Definition shaped (insts : list state) : Prop := exists on n rn ron b, insts = [User on n; Room rn ron b].
Lemma shaped_new : shaped new_insts.
Proof. unfold shaped, new_insts, new_user, new_room. eauto 10. Qed.

Definition handler (c : command) : nat := match command_room c with Some _ => 1%nat | None => 0%nat end.
Lemma route_handler c : route command_type registered c = Some (handler c).
Proof. destruct c; reflexivity. Qed.

Lemma decide_one st c : (length (decide st c) <= 1)%nat.
Proof. destruct st, c; cbn; try lia; repeat match goal with |- context [if ?b then _ else _] => destruct b end; cbn; lia. Qed.

Notation events_ := (stream_events event_stream).

Lemma shaped_get c insts : shaped insts -> exists st, nth_error insts (handler c) = Some st.
Proof. intros (on & n & rn & ron & b & ->). destruct c; cbn; eauto. Qed.

Lemma chat_spec c fate L insts : shaped insts -> exists st new,
  nth_error insts (handler c) = Some st
  /\ chat_dispatch c None fate (L, insts) = ((L ++ new, set_nth (handler c) (fold_left apply (events_ (command_stream c) L) st) insts), new)
  /\ subsequence new (decide (fold_left apply (events_ (command_stream c) L) st) c)
  /\ (fate = [] -> new = decide (fold_left apply (events_ (command_stream c) L) st) c).
Proof.
  intros Sh. destruct (shaped_get c insts Sh) as (st & N).
  destruct (dispatch_spec event_stream command_stream command_type apply decide registered c None fate L insts _ st (route_handler c) N)
    as (new & D & Sv & Q). exists st, new. cbn [read] in *. unfold chat_dispatch. repeat split; auto.
  intros ->. rewrite save_events_all in Sv. now injection Sv.
Qed.

Lemma shaped_step c insts st es : shaped insts -> nth_error insts (handler c) = Some st ->
  shaped (set_nth (handler c) (fold_left apply es st) insts).
Proof.
  intros (on & n & rn & ron & b & ->) N. destruct c; cbn in N |- *; injection N as <-; rewrite ?room_fold, ?user_fold; unfold shaped; eauto 10.
Qed.

(** * Histories *)
Notation plain_cuts ks := (forall k, In k ks -> k_cut k = None).

Lemma sub_length {A} (a b : list A) : subsequence a b -> (length a <= length b)%nat.
Proof. induction 1; cbn; lia. Qed.

Lemma at_most_one {A} (l : list A) : (length l <= 1)%nat -> forall a x b, l = a ++ x :: b -> a = [] /\ b = [].
Proof. intros H a x b ->. rewrite app_length in H. cbn in H. destruct a, b; cbn in H; try lia. auto. Qed.

Lemma split_app {A} (L new A1 : list A) x B : L ++ new = A1 ++ x :: B ->
  (exists B1, L = A1 ++ x :: B1) \/ (exists A2, A1 = L ++ A2 /\ new = A2 ++ x :: B).
Proof.
  revert A1. induction L as [|y L IH]; intros A1 H; cbn in H.
  - right. exists A1. auto.
  - destruct A1 as [|z A1]; cbn in H.
    + injection H as -> <-. left. exists L. reflexivity.
    + injection H as -> H. destruct (IH _ H) as [(B1 & ->)|(A2 & -> & ->)]; [left; exists B1; reflexivity|right; exists A2; auto].
Qed.

(** The state of affairs at which an event of the log was decided. *)
Lemma history ks : forall L0 i0 L i' ess e A, shaped i0 -> plain_cuts ks ->
  chat_dispatches ks (L0, i0) = ((L, i'), ess) -> stored_after L0 A e L ->
  exists ks1 k ks2 i1 ess1 st, ks = ks1 ++ k :: ks2 /\ chat_dispatches ks1 (L0, i0) = ((A, i1), ess1) /\ shaped i1
  /\ nth_error i1 (handler (k_command k)) = Some st
  /\ In e (decide (fold_left apply (events_ (command_stream (k_command k)) A) st) (k_command k)).
Proof.
  induction ks as [|k ks IH]; intros L0 i0 L i' ess e A Sh Cu D (B & EL & Le); cbn [dispatches] in D.
  - injection D as <- <- <-. rewrite EL, app_length in Le. cbn in Le. lia.
  - unfold chat_dispatches in D. cbn [dispatches] in D.
    rewrite (Cu k (or_introl eq_refl)) in D. fold chat_dispatch in D.
    destruct (chat_spec (k_command k) (k_fate k) L0 i0 Sh) as (st & new & N & Dk & Q & _). rewrite Dk in D.
    pose proof (shaped_step (k_command k) i0 st (events_ (command_stream (k_command k)) L0) Sh N) as Sh1.
    set (i1 := set_nth (handler (k_command k)) _ i0) in *.
    fold (chat_dispatches ks (L0 ++ new, i1)) in D.
    destruct (chat_dispatches ks (L0 ++ new, i1)) as [[L2 i2] e2] eqn:D2. injection D as -> -> <-.
    destruct (Nat.le_gt_cases (length (L0 ++ new)) (length A)) as [Ge|Lt].
    + destruct (IH (L0 ++ new) i1 L i' e2 e A Sh1 (fun k Hk => Cu k (or_intror Hk)) D2 (ex_intro _ B (conj EL Ge)))
        as (ks1 & k1 & ks2 & ia & ess1 & sta & -> & D1 & Sha & Na & Ia).
      exists (k :: ks1), k1, ks2, ia, (new :: ess1), sta. split; [reflexivity|]. split; [|auto].
      unfold chat_dispatches. cbn [dispatches]. rewrite (Cu k (or_introl eq_refl)). fold chat_dispatch. rewrite Dk.
      fold i1. fold (chat_dispatches ks1 (L0 ++ new, i1)). now rewrite D1.
    + exists [], k, ks, i0, [], st. split; [reflexivity|].
      destruct (dispatches_grow event_stream command_stream command_type apply decide registered ks _ _ _ _ _ D2) as (G & _ & _).
      rewrite EL in G. symmetry in G. destruct (split_app _ _ _ _ _ G) as [(B1 & X)|(A2 & X & _)].
      2:{ rewrite X, app_length in Lt. lia. }
      destruct (split_app _ _ _ _ _ X) as [(B2 & Y)|(A2 & -> & Y)].
      { rewrite Y, app_length in Le. cbn in Le. lia. }
      assert (Le1 : (length new <= 1)%nat) by (pose proof (sub_length _ _ Q); pose proof (decide_one (fold_left apply (events_ (command_stream (k_command k)) L0) st) (k_command k)); lia).
      destruct (at_most_one new Le1 _ _ _ Y) as [-> ->]. rewrite app_nil_r. split; [reflexivity|]. split; auto. split; auto.
      eapply sub_in; [exact Q|]. rewrite Y. now left.
Qed.

Lemma history_room c st e r : In e (decide st c) -> event_stream e = get_stream "room" r -> command_stream c = get_stream "room" r /\ handler c = 1%nat.
Proof.
  intros H E. destruct st, c; cbn in H; repeat match goal with H : context [if ?b then _ else _] |- _ => destruct b end; cbn in H;
    try contradiction; destruct H as [<-|[]]; cbn in *; auto; symmetry in E; now apply room_user in E.
Qed.

Lemma in_events s e L : In e (events_ s L) <-> In e L /\ event_stream e = s.
Proof. unfold stream_events. rewrite filter_In. split; intros [H E]; split; auto; [now apply String.eqb_eq|now apply String.eqb_eq in E]. Qed.

(** Whether the room aggregate takes the room it serves for on-boarded. *)
Definition room_open (insts : list state) : Prop := exists n b, nth_error insts 1 = Some (Room n true b).
Lemma open_room_from ks : forall L0 i0 L i' ess, shaped i0 -> plain_cuts ks -> chat_dispatches ks (L0, i0) = ((L, i'), ess) ->
  shaped i' /\ (room_open i' -> room_open i0 \/ exists k r e, In k ks /\ command_room (k_command k) = Some r /\ In e L /\ on_boards r e).
Proof.
  induction ks as [|k ks IH]; intros L0 i0 L i' ess Sh Cu D; unfold chat_dispatches in D; cbn [dispatches] in D.
  - injection D as <- <- <-. auto.
  - rewrite (Cu k (or_introl eq_refl)) in D. fold chat_dispatch in D.
    destruct (chat_spec (k_command k) (k_fate k) L0 i0 Sh) as (st & new & N & Dk & Q & _). rewrite Dk in D.
    pose proof (shaped_step (k_command k) i0 st (events_ (command_stream (k_command k)) L0) Sh N) as Sh1.
    set (i1 := set_nth (handler (k_command k)) _ i0) in *. fold (chat_dispatches ks (L0 ++ new, i1)) in D.
    destruct (chat_dispatches ks (L0 ++ new, i1)) as [[L2 i2] e2] eqn:D2. injection D as -> -> <-.
    destruct (IH _ _ _ _ _ Sh1 (fun k Hk => Cu k (or_intror Hk)) D2) as [Sh2 X]. split; [auto|]. intros O.
    destruct (X O) as [Y|(k' & r & e & Hk & Hr & He & Ho)]; [|right; exists k', r, e; auto using in_cons].
    destruct Sh as (on & n & rn & ron & b & ->). unfold handler in *. destruct (command_room (k_command k)) as [r|] eqn:Er.
    + cbn in N. injection N as <-. subst i1. rewrite room_fold in Y. destruct Y as (n1 & b1 & Y). cbn in Y.
      injection Y as _ Y _. destruct ron; [left; exists rn, b; reflexivity|]. cbn in Y. apply existsb_exists in Y as (e & He & Hop).
      apply in_events in He as [He Es]. right. exists k, r, e. split; [now left|]. split; [auto|].
      destruct (dispatches_grow event_stream command_stream command_type apply decide registered ks _ _ _ _ _ D2) as (-> & _ & _).
      split; [apply in_app_iff; left; apply in_app_iff; now left|].
      destruct e; try discriminate. exists u, name. f_equal.
      assert (command_stream (k_command k) = get_stream "room" r) as Z by (destruct (k_command k); cbn in *; congruence).
      rewrite Z in Es. now apply (stream_inj "room") in Es.
    + left. subst i1. destruct Y as (n1 & b1 & Y). cbn in Y. exists n1, b1. exact Y.
Qed.

(** * The application *)
Lemma moves_snoc a ms m : moves a (ms ++ [m]) = move_app (moves a ms) m.
Proof. unfold moves. rewrite fold_left_app. reflexivity. Qed.

Lemma dispatches_snoc ks k w : fst (chat_dispatches (ks ++ [k]) w) = fst (chat_dispatch (k_command k) (k_cut k) (k_fate k) (fst (chat_dispatches ks w))).
Proof.
  unfold chat_dispatches, chat_dispatch. rewrite dispatches_app. cbn [dispatches]. destruct (dispatches _ _ _ _ _ _ ks w) as [w1 o1]. cbn [fst].
  destruct (dispatch _ _ _ _ _ _ (k_command k) _ _ w1). reflexivity.
Qed.
Lemma dispatches_cat ks1 ks2 w : fst (chat_dispatches (ks1 ++ ks2) w) = fst (chat_dispatches ks2 (fst (chat_dispatches ks1 w))).
Proof.
  unfold chat_dispatches. rewrite dispatches_app. destruct (dispatches _ _ _ _ _ _ ks1 w) as [w1 o1]. cbn [fst].
  now destruct (dispatches _ _ _ _ _ _ ks2 w1).
Qed.

(** Whatever happens, the log is the result of dispatches one after the other. *)
Lemma moves_dispatch a ms : exists cs, a_world (moves a ms) = fst (chat_dispatches (map plain cs) (a_world a)).
Proof.
  induction ms as [|m ms IH] using rev_ind; [exists []; reflexivity|]. destruct IH as (cs & IH). rewrite moves_snoc.
  destruct m as [c| |]; cbn [move_app].
  - exists (cs ++ [c]). rewrite map_app. cbn [map]. rewrite dispatches_snoc, <- IH. reflexivity.
  - exists cs. destruct (Nat.ltb _ _); exact IH.
  - destruct (nth_error _ _) as [e|]; [|exists cs; exact IH]. cbn [a_world].
    exists (cs ++ react (fun u => count_warnings u (firstn (a_counted (moves a ms)) (fst (a_world (moves a ms))))) e).
    rewrite map_app, dispatches_cat, <- IH. reflexivity.
Qed.

Lemma plain_plain cs : plain_cuts (map plain cs).
Proof. intros k H. apply in_map_iff in H as (c & <- & _). reflexivity. Qed.

Lemma moves_shaped L0 ms : shaped (snd (a_world (moves (new_app L0) ms))).
Proof.
  destruct (moves_dispatch (new_app L0) ms) as (cs & ->). cbn [new_app a_world].
  destruct (chat_dispatches (map plain cs) (L0, new_insts)) as [[L i] ess] eqn:D. cbn.
  apply (open_room_from _ _ _ _ _ _ shaped_new (plain_plain cs) D).
Qed.

Lemma counted_le L0 ms : (a_counted (moves (new_app L0) ms) <= length (log (moves (new_app L0) ms)))%nat.
Proof.
  induction ms as [|m ms IH] using rev_ind; [reflexivity|]. rewrite moves_snoc. set (a := moves _ ms) in *. unfold log in *.
  destruct m as [c| |]; cbn [move_app].
  - cbn [a_counted a_world]. unfold chat_dispatch. destruct (a_world a) as [L i]. destruct (dispatch _ _ _ _ _ _ c _ _ (L, i)) as [[L' i'] es] eqn:D.
    apply dispatch_grows in D as [-> _]. cbn in *. rewrite app_length. lia.
  - destruct (Nat.ltb_spec (a_counted a) (length (fst (a_world a)))); cbn; lia.
  - destruct (nth_error _ _); [|exact IH]. cbn [a_counted a_world]. unfold chat_dispatches. destruct (a_world a) as [L i].
    destruct (dispatches _ _ _ _ _ _ _ (L, i)) as [[L' i'] es] eqn:D. apply dispatches_grow in D as [-> _]. cbn in *. rewrite app_length. lia.
Qed.

Lemma count_is u L : count_warnings u L = warnings u L.
Proof.
  unfold count_warnings. induction L as [|e L IH]; [reflexivity|]. destruct e; cbn [filter warnings]; auto.
  destruct (String.eqb u0 u); cbn [length]; rewrite <- IH; lia.
Qed.
Lemma warnings_app u a b : warnings u (a ++ b) = warnings u a + warnings u b.
Proof. induction a as [|e a IH]; [reflexivity|]. destruct e; cbn; rewrite ?IH; lia. Qed.
Lemma warnings_firstn u k L : warnings u (firstn k L) <= warnings u L.
Proof. rewrite <- (firstn_skipn k L) at 2. rewrite warnings_app. lia. Qed.

(** * Restricted words *)
Lemma byte_eqb a n : n < 256 -> (N_of_ascii a =? n) = true -> a = ascii_of_N n.
Proof. intros _ H. apply N.eqb_eq in H. rewrite <- (ascii_N_embedding a), H. reflexivity. Qed.

(** Small letters only. *)
Fixpoint small (w : string) : Prop :=
  match w with EmptyString => True | String a r => (97 <= N_of_ascii a /\ N_of_ascii a <= 122) /\ small r end.

Lemma lower_byte_small a b : lower_byte b = a -> 97 <= N_of_ascii a /\ N_of_ascii a <= 122 ->
  a = b \/ (65 <= N_of_ascii b /\ N_of_ascii b <= 90 /\ N_of_ascii a = N_of_ascii b + 32).
Proof.
  unfold lower_byte. destruct ((65 <=? N_of_ascii b) && (N_of_ascii b <=? 90)) eqn:E; [|auto].
  apply andb_prop in E as [E1 E2]. apply N.leb_le in E1, E2. intros <- _. right. rewrite N_ascii_embedding by lia. auto.
Qed.

(** What [lower] does at the front of a text: one character at a time. *)
Lemma lower_front s : s <> ""%string -> exists c t,
  (exists chunk, s = (chunk ++ t)%string /\ (String.length t < String.length s)%nat
    /\ (forall w, small (String c "") -> spells w "" -> spells (String c w) chunk)
    /\ (small (String c "") -> forall w u, spells w u -> spells (String c w) (chunk ++ u)%string))
  /\ lower s = String c (lower t).
Proof.
  destruct s as [|a rest]; [congruence|]. intros _.
  assert (One : forall w u, small (String (lower_byte a) "") -> spells w u -> spells (String (lower_byte a) w) (String a u)).
  { intros w u [K _] H. destruct (lower_byte_small _ a eq_refl K) as [E|(E1 & E2 & E3)].
    - rewrite E. now apply spells_same.
    - now apply spells_capital. }
  assert (Plain : lower (String a rest) = String (lower_byte a) (lower rest) -> exists c t,
    (exists chunk, String a rest = (chunk ++ t)%string /\ (String.length t < String.length (String a rest))%nat
      /\ (forall w, small (String c "") -> spells w "" -> spells (String c w) chunk)
      /\ (small (String c "") -> forall w u, spells w u -> spells (String c w) (chunk ++ u)%string))
    /\ lower (String a rest) = String c (lower t)).
  { intros E. exists (lower_byte a), rest. split; [|exact E]. exists (String a ""). cbn [append]. split; [reflexivity|]. split; [cbn; lia|].
    split; intros; now apply One. }
  destruct rest as [|b rest2]; [apply Plain; reflexivity|].
  destruct ((N_of_ascii a =? 196) && (N_of_ascii b =? 176)) eqn:D.
  { apply andb_prop in D as [D1 D2]. pose proof D1 as E1. pose proof D2 as E2.
    apply byte_eqb in E1; [|lia]. apply byte_eqb in E2; [|lia]. subst a b.
    exists "i"%char, rest2. split; [|reflexivity].
    exists (String (ascii_of_N 196) (String (ascii_of_N 176) "")). cbn [append]. split; [reflexivity|]. split; [cbn; lia|].
    split; intros; now apply spells_dotted. }
  destruct rest2 as [|c rest3]; [apply Plain; cbn [lower]; rewrite D; reflexivity|].
  destruct ((N_of_ascii a =? 226) && (N_of_ascii b =? 132) && (N_of_ascii c =? 170)) eqn:K.
  { apply andb_prop in K as [K1 K3]. apply andb_prop in K1 as [K1 K2]. pose proof K1 as E1. pose proof K2 as E2. pose proof K3 as E3.
    apply byte_eqb in E1; [|lia]. apply byte_eqb in E2; [|lia]. apply byte_eqb in E3; [|lia]. subst a b c.
    exists "k"%char, rest3. split; [|reflexivity].
    exists (String (ascii_of_N 226) (String (ascii_of_N 132) (String (ascii_of_N 170) ""))). cbn [append]. split; [reflexivity|]. split; [cbn; lia|].
    split; intros; now apply spells_kelvin. }
  apply Plain. cbn [lower]. rewrite D, K. reflexivity.
Qed.

(** A place in the lowered text is one in the text. *)
Lemma lower_cut n : forall s x y, (String.length s <= n)%nat -> lower s = (x ++ y)%string ->
  exists m1 m2, s = (m1 ++ m2)%string /\ lower m2 = y /\ (small x -> spells x m1).
Proof.
  induction n as [|n IH]; intros s x y L E.
  - destruct s; [|cbn in L; lia]. cbn in E. destruct x; [|discriminate]. exists ""%string, ""%string. cbn in E. repeat split; auto. intros _. constructor.
  - destruct x as [|c x]; [exists ""%string, s; repeat split; auto; intros _; constructor|].
    assert (s <> ""%string) as NE by (intros ->; discriminate E).
    destruct (lower_front s NE) as (c' & t & (chunk & E1 & E2 & _ & E3) & E4). rewrite E4 in E. cbn [append] in E. injection E as -> E.
    destruct (IH t x y ltac:(lia) E) as (m1 & m2 & F1 & F2 & F3). exists (chunk ++ m1)%string, m2.
    split; [now rewrite E1, F1, app_assoc_s|]. split; [exact F2|]. intros [Sc Sx]. apply E3; auto. split; auto. exact Logic.I.
Qed.

(** A byte that cannot continue one of the two characters outside ASCII. *)
Definition fresh (s : string) : Prop :=
  match s with EmptyString => True | String a _ => N_of_ascii a <> 176 /\ N_of_ascii a <> 132 /\ N_of_ascii a <> 170 end.
Lemma lower_app n : forall s t, (String.length s <= n)%nat -> fresh t -> lower (s ++ t) = (lower s ++ lower t)%string.
Proof.
  induction n as [|n IH]; intros s t L F; [destruct s; [reflexivity|cbn in L; lia]|].
  destruct s as [|a rest]; [reflexivity|]. cbn [String.length] in L.
  destruct rest as [|b rest2].
  - cbn [append]. destruct t as [|b t]; [reflexivity|]. cbn [lower]. cbn [fresh] in F. destruct F as (F1 & F2 & F3).
    rewrite (proj2 (N.eqb_neq _ 176) F1), andb_false_r. rewrite (proj2 (N.eqb_neq _ 132) F2), andb_false_r. destruct t; reflexivity.
  - destruct rest2 as [|c rest3].
    + cbn [append]. cbn [lower]. destruct (_ && _); [cbn [lower append]; destruct t; reflexivity|].
      specialize (IH (String b "") t ltac:(cbn in *; lia) F). cbn [append] in IH.
      destruct t as [|d t]; [reflexivity|]. cbn [fresh] in F. destruct F as (F1 & F2 & F3).
      rewrite (proj2 (N.eqb_neq _ 170) F3), andb_false_r. cbn [append]. f_equal. exact IH.
    + cbn [append]. change (lower (String a (String b (String c (rest3 ++ t))))) with
        (if (N_of_ascii a =? 196) && (N_of_ascii b =? 176) then String "i" (lower (String c (rest3 ++ t)))
         else if (N_of_ascii a =? 226) && (N_of_ascii b =? 132) && (N_of_ascii c =? 170) then String "k" (lower (rest3 ++ t))
         else String (lower_byte a) (lower (String b (String c (rest3 ++ t))))).
      change (lower (String a (String b (String c rest3)))) with
        (if (N_of_ascii a =? 196) && (N_of_ascii b =? 176) then String "i" (lower (String c rest3))
         else if (N_of_ascii a =? 226) && (N_of_ascii b =? 132) && (N_of_ascii c =? 170) then String "k" (lower rest3)
         else String (lower_byte a) (lower (String b (String c rest3)))).
      destruct (_ && _); [cbn [append]; f_equal; apply (IH (String c rest3) t); cbn in *; auto; lia|].
      destruct (_ && _); [cbn [append]; f_equal; apply (IH rest3 t); cbn in *; auto; lia|].
      cbn [append]. f_equal. apply (IH (String b (String c rest3)) t); cbn in *; auto; lia.
Qed.

Lemma lower_byte_plain a : N_of_ascii a <> 196 -> N_of_ascii a <> 226 -> forall s, lower (String a s) = String (lower_byte a) (lower s).
Proof.
  intros H1 H2 s. cbn [lower]. rewrite (proj2 (N.eqb_neq _ 196) H1), (proj2 (N.eqb_neq _ 226) H2). cbn [andb].
  destruct s as [|b [|c s]]; reflexivity.
Qed.
Lemma lower_spelled w text : spells w text -> small w -> forall s, lower (text ++ s) = (w ++ lower s)%string.
Proof.
  induction 1 as [|a w t H IH|a b w t H1 H2 H3 H IH|w t H IH|w t H IH]; intros Sm s; [reflexivity| | | |].
  - destruct Sm as [[A1 A2] Sm]. cbn [append]. rewrite lower_byte_plain by lia. rewrite IH by exact Sm. f_equal.
    unfold lower_byte. destruct (_ && _) eqn:E; [|reflexivity]. apply andb_prop in E as [_ E]. apply N.leb_le in E. lia.
  - destruct Sm as [_ Sm]. cbn [append]. rewrite lower_byte_plain by lia. rewrite IH by exact Sm. f_equal.
    unfold lower_byte. rewrite (proj2 (N.leb_le _ _) H1), (proj2 (N.leb_le _ _) H2). cbn [andb]. rewrite <- H3. apply ascii_N_embedding.
  - destruct Sm as [_ Sm]. cbn [append]. rewrite <- (IH Sm s). reflexivity.
  - destruct Sm as [_ Sm]. cbn [append]. rewrite <- (IH Sm s). reflexivity.
Qed.
Lemma spelled_fresh w text s : spells w text -> small w -> w <> ""%string -> fresh (text ++ s).
Proof.
  intros H Sm NE. destruct H; [congruence| | | |]; cbn [append fresh]; cbn [small] in Sm; try lia; repeat split; vm_compute; discriminate.
Qed.

Lemma words_small word : In word restricted_words -> small word /\ word <> ""%string.
Proof. intros [<-|[<-|[<-|[]]]]; (split; [cbn; repeat (split; [lia|]); exact Logic.I|discriminate]). Qed.
Lemma restricted_iff msg : contains_restricted_word msg = true <-> restricted msg.
Proof.
  unfold contains_restricted_word, restricted. rewrite existsb_exists. split.
  - intros (w & H & X). apply contains_spec in X as (a & b & X). destruct (words_small w H) as [Sm _].
    destruct (lower_cut _ msg a (w ++ b)%string (le_n _) X) as (m1 & m2 & E1 & E2 & _).
    destruct (lower_cut _ m2 w b (le_n _) E2) as (m3 & m4 & E3 & _ & E4). exists w, m3, m1, m4.
    split; [exact H|]. split; [auto|]. now rewrite E1, E3.
  - intros (w & text & a & b & H & Sp & ->). exists w. split; auto. destruct (words_small w H) as [Sm NE].
    apply contains_spec. exists (lower a), (lower b).
    rewrite (lower_app _ a (text ++ b)%string (le_n _)) by (eapply spelled_fresh; eauto). now rewrite (lower_spelled w text Sp Sm).
Qed.

(** * Reactions *)
Lemma plain_dispatch c L insts st : shaped insts -> nth_error insts (handler c) = Some st ->
  fst (chat_dispatch c None [] (L, insts)) = (L ++ decide (fold_left apply (events_ (command_stream c) L) st) c,
    set_nth (handler c) (fold_left apply (events_ (command_stream c) L) st) insts).
Proof.
  intros Sh N. destruct (chat_spec c [] L insts Sh) as (st' & new & N' & D & _ & E). rewrite N in N'. injection N' as <-.
  rewrite D, <- (E eq_refl). reflexivity.
Qed.
Lemma two_dispatches c1 c2 w : fst (chat_dispatches (map plain [c1; c2]) w) = fst (chat_dispatch c2 None [] (fst (chat_dispatch c1 None [] w))).
Proof.
  unfold chat_dispatches, chat_dispatch. cbn [map dispatches plain k_command k_cut k_fate].
  destruct (dispatch _ _ _ _ _ _ c1 _ _ w) as [w1 e1]. cbn [fst]. destruct (dispatch _ _ _ _ _ _ c2 _ _ w1) as [w2 e2]. reflexivity.
Qed.

Lemma remove_and_ban r u L insts : shaped insts -> fst (fst (chat_dispatches (map plain [RemoveUserFromRoom r u "language"; BanUserFromRoom r u "language" 3600]) (L, insts)))
  = L ++ [UserWasRemovedFromRoom r u "language"; UserWasBannedFromRoom r u "language" 3600].
Proof.
  intros (on & n & rn & ron & b & ->). rewrite two_dispatches.
  rewrite (plain_dispatch _ L _ (Room rn ron b)); [|unfold shaped; eauto 10|reflexivity]. cbn [handler command_room set_nth command_stream].
  rewrite room_fold. cbn [decide].
  rewrite (plain_dispatch _ _ _ (Room (fold_left rename (events_ (get_stream "room" r) L) rn) (ron || existsb opens_room (events_ (get_stream "room" r) L)) (fold_left ban (events_ (get_stream "room" r) L) b)));
    [|unfold shaped; eauto 10|reflexivity].
  cbn [fst]. rewrite room_fold. cbn [decide]. rewrite <- app_assoc. reflexivity.
Qed.
Lemma tell_and_warn r u L insts : shaped insts ->
  let L' := fst (fst (chat_dispatches (map plain [SendPrivateMessageToRoom r u "you have been warned"; WarnUser u "language"]) (L, insts))) in
  (L' = L ++ [PrivateMessageWasSentToRoom r u "you have been warned"; UserWasWarned u "language"]
   \/ L' = L ++ [UserWasWarned u "language"])
  /\ ((exists e, In e L /\ on_boards r e) -> L' = L ++ [PrivateMessageWasSentToRoom r u "you have been warned"; UserWasWarned u "language"]).
Proof.
  intros (on & n & rn & ron & b & ->) L'. subst L'. rewrite two_dispatches.
  rewrite (plain_dispatch _ L _ (Room rn ron b)); [|unfold shaped; eauto 10|reflexivity]. cbn [handler command_room set_nth command_stream].
  rewrite room_fold. cbn [decide].
  rewrite (plain_dispatch _ _ _ (User on n)); [|unfold shaped; eauto 10|reflexivity].
  cbn [fst]. rewrite user_fold. cbn [decide].
  destruct (ron || existsb opens_room (events_ (get_stream "room" r) L)) eqn:X; cbn [negb]; rewrite <- app_assoc; cbn [Datatypes.app].
  - split; auto.
  - split; [auto|]. intros (e & He & u' & name & ->). apply orb_false_iff in X as [_ X]. exfalso.
    assert (existsb opens_room (events_ (get_stream "room" r) L) = true) as Y; [|congruence].
    apply existsb_exists. exists (RoomWasOnBoarded r u' name). split; [apply in_events; auto|reflexivity].
Qed.

Lemma world_pair a : a_world a = (log a, snd (a_world a)).
Proof. unfold log. now destruct (a_world a). Qed.

(** What one move adds, and why somebody was expelled. *)
Definition justified (L0 L : list event) : Prop :=
  forall A e, stored_after L0 A e L -> forall r u, expels r u e ->
  exists msg, In (MessageWasSentToRoom r u msg) A /\ restricted msg /\ 2 <= warnings u A.

Lemma justified_app L0 L new : (length L0 <= length L)%nat -> justified L0 L ->
  (forall a e b, new = a ++ e :: b -> forall r u, expels r u e -> exists msg, In (MessageWasSentToRoom r u msg) L /\ restricted msg /\ 2 <= warnings u L) ->
  justified L0 (L ++ new).
Proof.
  intros Le J H A e (B & E & Ge) r u X. destruct (split_app _ _ _ _ _ E) as [(B1 & Y)|(A2 & -> & Y)].
  - eapply J; eauto. exists B1. auto.
  - destruct (H _ _ _ Y r u X) as (msg & I & R & W). exists msg. split; [apply in_app_iff; auto|]. split; auto. rewrite warnings_app. lia.
Qed.

Lemma decide_expels st c e r u : In e (decide st c) -> expels r u e -> expelling c.
Proof.
  intros H X. destruct st, c; cbn in H; repeat match goal with H : context [if ?b then _ else _] |- _ => destruct b end; cbn in H;
    try contradiction; destruct H as [<-|[]]; destruct X as [(why & X)|(why & t & X)]; try discriminate; unfold expelling; eauto 10.
Qed.

Lemma expelled_for_a_reason L0 ms : (forall c, In (MDispatch c) ms -> ~ expelling c) ->
  let L := log (moves (new_app L0) ms) in (length L0 <= length L)%nat /\ justified L0 L.
Proof.
  induction ms as [|m ms IH] using rev_ind; intros H.
  - cbn. split; [auto|]. intros A e (B & E & Le). rewrite E, app_length in Le. cbn in Le. lia.
  - destruct (IH (fun c Hc => H c (proj2 (in_app_iff ms [m] _) (or_introl Hc)))) as [Le J]. cbv zeta. rewrite moves_snoc.
    pose proof (moves_shaped L0 ms) as Sh. pose proof (counted_le L0 ms) as Co. set (a := moves _ ms) in *.
    destruct m as [c| |]; cbn [move_app].
    + unfold log at 1 2. cbn [a_world]. rewrite (world_pair a).
      destruct (shaped_get c _ Sh) as (st & N). rewrite (plain_dispatch c (log a) _ st Sh N). cbn [fst].
      split; [rewrite app_length; lia|]. apply justified_app; auto. intros x e y E r u X. exfalso.
      apply (H c (proj2 (in_app_iff ms [MDispatch c] _) (or_intror (or_introl eq_refl)))).
      eapply decide_expels; [|exact X]. rewrite E. apply in_app_iff. right. now left.
    + destruct (Nat.ltb _ _); auto.
    + destruct (nth_error (fst (a_world a)) (a_seen a)) as [e|] eqn:Ne; [|auto].
      unfold log at 1 2. cbn [a_world]. change (fst (a_world a)) with (log a) in *. rewrite (world_pair a).
      assert (He : In e (log a)) by (eapply nth_error_In; exact Ne).
      destruct e; cbn [react]; try (cbn; auto; fail).
      destruct (contains_restricted_word msg) eqn:R; [|cbn; auto].
      change warn_threshold with 2. change ban_timeout with 3600. rewrite count_is.
      destruct (N.leb_spec 2 (warnings u (firstn (a_counted a) (log a)))) as [W|W].
      * rewrite remove_and_ban by auto. split; [rewrite app_length; lia|]. apply justified_app; auto.
        intros x e y E r' u' X. pose proof (warnings_firstn u (a_counted a) (log a)) as Wf. apply restricted_iff in R.
        assert (r' = r /\ u' = u) as [-> ->].
        { destruct x as [|x0 [|x1 x]]; cbn in E; [| |destruct x; discriminate]; injection E as E0 E; subst; try injection E as E1 _; subst;
          destruct X as [(why & X)|(why & t & X)]; try discriminate; injection X as -> -> ; auto. }
        exists msg. split; auto. split; auto. lia.
      * destruct (tell_and_warn r u (log a) _ Sh) as [[X|X] _]; rewrite X; (split; [rewrite app_length; lia|]); apply justified_app; auto;
          intros x e y E r' u' Y; exfalso;
          (destruct x as [|x0 [|x1 x]]; cbn in E; [| |destruct x; discriminate]; injection E as E0 E; subst; try injection E as E1 _; subst; try discriminate;
           destruct Y as [(why & Y)|(why & t & Y)]; discriminate).
Qed.

(** Dispatching one command, with the two aggregates. *)
Lemma room_step c r L us rn ron b : command_room c = Some r ->
  chat_dispatch c None [] (L, [us; Room rn ron b])
  = ((L ++ decide (fold_left apply (events_ (command_stream c) L) (Room rn ron b)) c, [us; fold_left apply (events_ (command_stream c) L) (Room rn ron b)]),
     decide (fold_left apply (events_ (command_stream c) L) (Room rn ron b)) c).
Proof.
  intros H. unfold chat_dispatch, dispatch. rewrite route_handler. unfold handler. rewrite H. cbn [nth_error set_nth read].
  rewrite save_events_all. reflexivity.
Qed.
Lemma user_step c L on n ro : command_room c = None ->
  chat_dispatch c None [] (L, [User on n; ro])
  = ((L ++ decide (fold_left apply (events_ (command_stream c) L) (User on n)) c, [fold_left apply (events_ (command_stream c) L) (User on n); ro]),
     decide (fold_left apply (events_ (command_stream c) L) (User on n)) c).
Proof.
  intros H. unfold chat_dispatch, dispatch. rewrite route_handler. unfold handler. rewrite H. cbn [nth_error set_nth read].
  rewrite save_events_all. reflexivity.
Qed.
Lemma dispatches_cons c cs w : chat_dispatches (map plain (c :: cs)) w =
  let (w1, es) := chat_dispatch c None [] w in let (w2, ess) := chat_dispatches (map plain cs) w1 in (w2, es :: ess).
Proof. reflexivity. Qed.

(** The warnings of the past are counted from the start. *)
Lemma counted_ge L0 ms : (length L0 <= a_counted (moves (new_app L0) ms))%nat /\ exists new, log (moves (new_app L0) ms) = L0 ++ new.
Proof.
  induction ms as [|m ms IH] using rev_ind; [cbn; split; [lia|exists []; now rewrite app_nil_r]|].
  destruct IH as (Le & new & IH). rewrite moves_snoc. set (a := moves _ ms) in *. unfold log in *.
  destruct m as [c| |]; cbn [move_app].
  - cbn [a_counted a_world]. split; [exact Le|]. unfold chat_dispatch. destruct (a_world a) as [L i]. destruct (dispatch _ _ _ _ _ _ c _ _ (L, i)) as [[L' i'] es] eqn:D.
    apply dispatch_grows in D as [-> _]. cbn in *. subst L. exists (new ++ es). now rewrite app_assoc.
  - destruct (Nat.ltb_spec (a_counted a) (length (fst (a_world a)))); cbn; (split; [lia|eauto]).
  - destruct (nth_error _ _); [|split; eauto]. cbn [a_counted a_world]. split; [exact Le|]. unfold chat_dispatches. destruct (a_world a) as [L i].
    destruct (dispatches _ _ _ _ _ _ _ (L, i)) as [[L' i'] es] eqn:D. apply dispatches_grow in D as [-> _]. cbn in *. subst L. exists (new ++ concat es). now rewrite app_assoc.
Qed.
