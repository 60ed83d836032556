(** C43 and C44: dispatching commands, and the rules of the chat example. *)
From Coq Require Import PeanoNat.
From Verif Require Import Base Core CoreProofs SubscriptionProofs Cqrs CqrsSpec CqrsProofs Text Chat ChatSpec ChatProofs.
Open Scope string_scope.
Open Scope N_scope.
Open Scope list_scope.

(** Plays commands that go to two streams, told apart by [X]. *)
Ltac play X :=
  unfold new_insts, new_user, new_room;
  repeat (rewrite dispatches_cons;
          first [erewrite room_step by reflexivity|rewrite user_step by reflexivity];
          unfold stream_events; cbn -[get_stream String.eqb chat_dispatches chat_dispatch map];
          repeat (rewrite ?String.eqb_refl, ?X; cbn -[get_stream String.eqb chat_dispatches chat_dispatch map]));
  reflexivity.

(** * C43: Dispatch replays, then decides *)
Section C43.
Context {E C S : Type}.
Variable event_stream : E -> string.
Variable command_stream : C -> string.
Variable command_type : C -> string.
Variable apply : S -> E -> S.
Variable decide : S -> C -> list E.
Variable registered : list (list string).
Notation dispatch_ := (dispatch event_stream command_stream command_type apply decide registered).
Notation dispatches_ := (dispatches event_stream command_stream command_type apply decide registered).
Notation run_ := (run event_stream command_stream command_type apply decide registered).
(** The events of the stream a command is about. *)
Notation stream_of c L := (filter (fun e => String.eqb (event_stream e) (command_stream c)) L).

(** A command nobody registered for changes nothing. *)
Theorem C43_unknown_command : forall c cut fate L insts,
  (forall types, In types registered -> ~ In (command_type c) types) -> dispatch_ c cut fate (L, insts) = ((L, insts), []).
Proof.
  intros c cut fate L insts H. unfold dispatch. assert (route command_type registered c = None) as ->; [|reflexivity].
  unfold route. generalize 0%nat. induction registered as [|types rest IH]; intros h; cbn [route_from]; [reflexivity|].
  rewrite IH by (intros; apply H; now right). destruct (existsb _ types) eqn:X; [|reflexivity]. exfalso.
  apply existsb_exists in X as (t & Ht & Et). apply String.eqb_eq in Et. subst t. exact (H types (or_introl eq_refl) Ht).
Qed.

(** Of the aggregates registered for a command the last one gets it. *)
Theorem C43_last_registered : forall c before types after, registered = before ++ types :: after ->
  In (command_type c) types -> (forall ts, In ts after -> ~ In (command_type c) ts) ->
  route command_type registered c = Some (length before).
Proof.
  intros c before types after -> Hin Hno. unfold route. replace (length before) with (0 + length before)%nat by reflexivity. generalize 0%nat.
  induction before as [|b before IH]; intros h; cbn [Datatypes.app route_from].
  - assert (forall h, route_from h after (command_type c) = None) as ->.
    { clear -Hno. induction after as [|t r IH]; intros h; cbn; [reflexivity|]. rewrite IH by (intros; apply Hno; now right).
      destruct (existsb _ t) eqn:X; [|reflexivity]. exfalso. apply existsb_exists in X as (x & Hx & Ex). apply String.eqb_eq in Ex.
      subst x. exact (Hno t (or_introl eq_refl) Hx). }
    assert (existsb (String.eqb (command_type c)) types = true) as ->.
    { apply existsb_exists. exists (command_type c). split; [auto|apply String.eqb_refl]. }
    cbn. f_equal. lia.
  - rewrite IH. cbn. f_equal. lia.
Qed.

(** What a dispatch returns is what it stores, at the end of the log; these are events
    the aggregate decided, in order; all of them, if every save succeeds. *)
Theorem C43_returned : forall c cut fate L insts L' insts' es h st,
  dispatch_ c cut fate (L, insts) = ((L', insts'), es) ->
  route command_type registered c = Some h -> nth_error insts h = Some st ->
  L' = L ++ es /\ exists st', subsequence es (decide st' c) /\ (fate = [] -> es = decide st' c).
Proof.
  intros c cut fate L insts L' insts' es h st D R N.
  destruct (dispatch_spec event_stream command_stream command_type apply decide registered c cut fate L insts h st R N) as (new & D' & Sv & Q).
  rewrite D' in D. injection D as <- <- <-. split; auto. eexists. split; [exact Q|]. intros ->.
  rewrite save_events_all in Sv. now injection Sv.
Qed.

(** A new aggregate decides from the events of its stream. *)
Theorem C43_first_partial : forall c L insts h init,
  route command_type registered c = Some h -> nth_error insts h = Some init ->
  exists insts', dispatch_ c None [] (L, insts) = ((L ++ decide (replay apply init (stream_of c L)) c, insts'), decide (replay apply init (stream_of c L)) c).
Proof.
  intros c L insts h init R N.
  destruct (dispatch_spec event_stream command_stream command_type apply decide registered c None [] L insts h init R N) as (new & D & Sv & _).
  rewrite save_events_all in Sv. injection Sv as _ <-. eexists. exact D.
Qed.

(** So does one that served no other stream before, whatever other aggregates did and
    whichever saves failed, if it can be loaded again and no read fails. *)
Theorem C43_one_stream_partial : forall ks c L0 insts L insts1 ess h init,
  reloadable apply init ->
  dispatches_ ks (L0, insts) = ((L, insts1), ess) ->
  (forall k, In k ks -> k_cut k = None) ->
  route command_type registered c = Some h -> nth_error insts h = Some init ->
  (forall k, In k ks -> route command_type registered (k_command k) = Some h -> command_stream (k_command k) = command_stream c) ->
  exists insts2, dispatch_ c None [] (L, insts1) = ((L ++ decide (replay apply init (stream_of c L)) c, insts2), decide (replay apply init (stream_of c L)) c).
Proof.
  intros ks c L0 insts L insts1 ess h init Re D Cu R N On.
  destruct (serves_one event_stream command_stream command_type apply decide registered ks L0 insts L insts1 ess h (command_stream c) init Re D Cu On) as (before & more & Nh & Ev).
  { exists [], (stream_events event_stream (command_stream c) L0). auto. }
  destruct (dispatch_spec event_stream command_stream command_type apply decide registered c None [] L insts1 h _ R Nh) as (new & D' & Sv & _).
  rewrite save_events_all in Sv. injection Sv as _ <-. eexists. cbn [read] in D'.
  assert (RR : fold_left apply (stream_events event_stream (command_stream c) L) (replay apply init before)
    = replay apply init (stream_events event_stream (command_stream c) L)) by (rewrite Ev; apply Re).
  rewrite RR in D'. exact D'.
Qed.

(** Dispatches that overlap in any way: each returns the events it stored, in order. *)
Theorem C43_overlapping_returned : forall ls L0 insts x i saved,
  run_ (mk_sys L0 insts []) ls = Some x -> nth_error (x_threads x) i = Some (TDone saved) ->
  exists new, x_log x = L0 ++ new /\ map snd (filter (fun p => Nat.eqb (fst p) i) new) = saved.
Proof.
  intros ls L0 insts x i saved R T.
  destruct (run_tagged event_stream command_stream command_type apply decide registered ls _ _ (length L0) R) as (Tg & (new & EL) & _).
  - cbn. lia.
  - intros j t H. destruct j; discriminate.
  - intros p. cbn. rewrite skipn_all. intros [].
  - cbn in EL. exists new. split; auto. specialize (Tg i _ T). rewrite EL, skipn_app, skipn_all, Nat.sub_diag in Tg. exact Tg.
Qed.

(** A dispatch during which nothing else runs does what [dispatch] says, without
    failures if nothing fails. *)
Theorem C43_alone_partial : forall ls x x' i c saved, run_ x ls = Some x' -> only i ls -> nothing_pending (x_insts x) ->
  nth_error (x_threads x) i = Some (TStart c) -> nth_error (x_threads x') i = Some (TDone saved) ->
  exists cut fate, dispatch_ c cut fate (map snd (x_log x), map fst (x_insts x)) = ((map snd (x_log x'), map fst (x_insts x')), saved)
  /\ nothing_pending (x_insts x') /\ ((forall l, In l ls -> l = LStep i None true) -> cut = None /\ fate = []).
Proof.
  intros ls x x' i c saved R O Np Hi Hd.
  destruct (run_alone event_stream command_stream command_type apply decide registered (forall l, In l ls -> l = LStep i None true) ls x x' i (TStart c) saved R O (fun p => p) Hi Np Hd)
    as (cut & fate & sts & D & E1 & Np' & G).
  exists cut, fate. unfold states in *. rewrite D, E1. auto.
Qed.
End C43.
Print Assumptions C43_unknown_command.
Print Assumptions C43_last_registered.
Print Assumptions C43_returned.
Print Assumptions C43_first_partial.
Print Assumptions C43_one_stream_partial.
Print Assumptions C43_overlapping_returned.
Print Assumptions C43_alone_partial.

(** The aggregates of the chat example can be loaded again. *)
Theorem C43_chat_reloadable : reloadable apply new_room /\ reloadable apply new_user.
Proof. split; [apply room_reloadable|apply user_reloadable]. Qed.
Print Assumptions C43_chat_reloadable.

Definition ks_party : list (call command) :=
  map plain [OnBoardRoom "party" "ann" "Party"; OnBoardUser "ann" "Ann"; JoinRoom "party" "ann"; BanUserFromRoom "party" "ann" "rude" 60; JoinRoom "party" "ann"; JoinRoom "party" "bob"].
Definition party_log : list event :=
  [RoomWasOnBoarded "party" "ann" "Party"; UserWasOnBoarded "ann" "Ann"; RoomWasJoined "party" "ann"; UserWasBannedFromRoom "party" "ann" "rude" 60; RoomWasJoined "party" "bob"].
Example C43_examples :
  route command_type registered (JoinRoom "party" "ann") = Some 1%nat /\ nth_error new_insts 1 = Some new_room
  /\ fst (fst (chat_dispatches ks_party ([], new_insts))) = party_log
  /\ snd (chat_dispatches ks_party ([], new_insts))
     = [[RoomWasOnBoarded "party" "ann" "Party"]; [UserWasOnBoarded "ann" "Ann"]; [RoomWasJoined "party" "ann"]; [UserWasBannedFromRoom "party" "ann" "rude" 60]; []; [RoomWasJoined "party" "bob"]]
  /\ (forall k, In k ks_party -> k_cut k = None)
  /\ (forall k, In k ks_party -> route command_type registered (k_command k) = Some 1%nat -> command_stream (k_command k) = get_stream "room" "party").
Proof.
  split; [reflexivity|]. split; [reflexivity|]. split; [vm_compute; reflexivity|]. split; [vm_compute; reflexivity|].
  split; intros k H; cbn in H; repeat (destruct H as [<-|H]; [first [reflexivity|intros X; first [reflexivity|discriminate X]]|]); destruct H.
Qed.

(** The state of one stream leaks into the next: all users share one aggregate, which is
    never reset.  After a second command for a user, nobody else can be on-boarded. *)
Theorem C43_leak_refuted : forall a b name why, a <> b ->
  decide (replay apply new_user []) (OnBoardUser b name) = [UserWasOnBoarded b name]
  /\ snd (chat_dispatches (map plain [OnBoardUser a "A"; WarnUser a why; OnBoardUser b name]) ([], new_insts))
     = [[UserWasOnBoarded a "A"]; [UserWasWarned a why]; []]
  /\ stream_events event_stream (get_stream "user" b) [UserWasOnBoarded a "A"; UserWasWarned a why] = [].
Proof.
  intros a b name why N. split; [reflexivity|].
  assert (X : String.eqb (get_stream "user" a) (get_stream "user" b) = false).
  { apply String.eqb_neq. intros H. apply N. now apply (stream_inj "user") in H. }
  split; [|unfold stream_events; cbn -[get_stream]; now rewrite X].
  play X.
Qed.
Print Assumptions C43_leak_refuted.

(** An aggregate that counts is wrong from its third command on: every Load adds the
    whole history again.  Here the third of three permitted events is refused. *)
Definition cn_apply (n : N) (_ : unit) : N := n + 1.
Definition cn_decide (n : N) (_ : unit) : list unit := if n <? 3 then [tt] else [].
Theorem C43_count_refuted :
  let add := mk_call tt None [] in let L := [tt; tt] in
  snd (dispatches (fun _ => "s") (fun _ => "s") (fun _ => "Add") cn_apply cn_decide [["Add"]] [add; add; add] ([], [0])) = [[tt]; [tt]; []]
  /\ cn_decide (replay cn_apply 0 L) tt = [tt] /\ ~ reloadable cn_apply 0.
Proof.
  split; [vm_compute; reflexivity|]. split; [reflexivity|]. intros R. specialize (R [tt] []). vm_compute in R. discriminate.
Qed.
Print Assumptions C43_count_refuted.

(** A read that fails is taken for the end of the stream: the same user is on-boarded a
    second time, by any command whose read fails at once on a fresh aggregate. *)
Theorem C43_failing_read_refuted : forall u name1 name2,
  chat_dispatch (OnBoardUser u name2) (Some 0%nat) [] ([UserWasOnBoarded u name1], new_insts)
  = (([UserWasOnBoarded u name1; UserWasOnBoarded u name2], new_insts), [UserWasOnBoarded u name2])
  /\ snd (chat_dispatch (OnBoardUser u name2) None [] ([UserWasOnBoarded u name1], new_insts)) = [].
Proof.
  intros u name1 name2. split; [reflexivity|]. unfold new_insts, new_user. rewrite user_step by reflexivity.
  unfold stream_events. cbn -[get_stream String.eqb]. rewrite String.eqb_refl. reflexivity.
Qed.
Print Assumptions C43_failing_read_refuted.

(** The events of one command are not saved together: the first save may fail and the
    second succeed. *)
Theorem C43_all_or_nothing_refuted : exists fate L insts,
  dispatch (fun e : nat => "s") (fun _ : unit => "s") (fun _ => "Add") (fun (st : unit) _ => st) (fun _ _ => [1; 2]%nat) [["Add"]] tt None fate ([], [tt])
  = ((L, insts), [2%nat]).
Proof. exists [false]. eexists. eexists. reflexivity. Qed.
Print Assumptions C43_all_or_nothing_refuted.

(** Two commands at the same time on the same user: both are accepted, which no order of
    them explains; the second one is refused in either order. *)
Definition on_board (n1 n2 : string) : list (label command) :=
  [LBegin (OnBoardUser "ann" n1); LBegin (OnBoardUser "ann" n2)].
Definition turns (l : list nat) : list (label command) := map (fun i => LStep i None true) l.
Definition fresh_chat : sys event command state := mk_sys [] [(new_user, []); (new_room, [])] [].
Theorem C43_overlapping_refuted : forall n1 n2, exists x,
  chat_run fresh_chat (on_board n1 n2 ++ turns [0;0;0;0;0;0;1;1;1;1;1;1]%nat) <> None
  /\ chat_run fresh_chat (on_board n1 n2 ++ turns [0;1;0;0;0;0;0;1;1;1;1;1]%nat) = Some x
  /\ x_threads x = [TDone [UserWasOnBoarded "ann" n1]; TDone [UserWasOnBoarded "ann" n2]]
  /\ map snd (x_log x) = [UserWasOnBoarded "ann" n1; UserWasOnBoarded "ann" n2]
  /\ fst (fst (chat_dispatches (map plain [OnBoardUser "ann" n1; OnBoardUser "ann" n2]) ([], new_insts))) = [UserWasOnBoarded "ann" n1]
  /\ fst (fst (chat_dispatches (map plain [OnBoardUser "ann" n2; OnBoardUser "ann" n1]) ([], new_insts))) = [UserWasOnBoarded "ann" n2].
Proof.
  intros n1 n2. eexists. split; [lazy; discriminate|]. split; [lazy; reflexivity|]. lazy. repeat split; reflexivity.
Qed.
Print Assumptions C43_overlapping_refuted.

(** Commands for different users at the same time: each event is stored twice, and each
    dispatch returns the other's event too. *)
Theorem C43_mixed_up_refuted : forall w1 w2, exists x,
  chat_run fresh_chat ([LBegin (WarnUser "ann" w1); LBegin (WarnUser "bob" w2)] ++ turns [0;1;0;1;0;1;0;1;0;0;0;1;1;1]%nat) = Some x
  /\ x_threads x = [TDone [UserWasWarned "ann" w1; UserWasWarned "bob" w2]; TDone [UserWasWarned "ann" w1; UserWasWarned "bob" w2]]
  /\ map snd (x_log x) = [UserWasWarned "ann" w1; UserWasWarned "bob" w2; UserWasWarned "ann" w1; UserWasWarned "bob" w2].
Proof. intros w1 w2. eexists. split; [lazy; reflexivity|]. lazy. split; reflexivity. Qed.
Print Assumptions C43_mixed_up_refuted.
(** ... or an event gets lost: reset by one dispatch before the other takes it. *)
Theorem C43_lost_event_refuted : forall w1 w2, exists x,
  chat_run fresh_chat ([LBegin (WarnUser "ann" w1); LBegin (WarnUser "bob" w2)] ++ turns [0;1;0;0;1;0;0;0;1;1;1]%nat) = Some x
  /\ x_threads x = [TDone [UserWasWarned "ann" w1]; TDone []]
  /\ map snd (x_log x) = [UserWasWarned "ann" w1].
Proof. intros w1 w2. eexists. split; [lazy; reflexivity|]. lazy. split; reflexivity. Qed.
Print Assumptions C43_lost_event_refuted.

Example C43_overlapping_example : exists x,
  chat_run fresh_chat ([LBegin (WarnUser "ann" "a"); LBegin (OnBoardRoom "r" "bob" "R")] ++ turns [0;1;0;1;0;1;0;1;1;0;0;1]%nat) = Some x
  /\ x_threads x = [TDone [UserWasWarned "ann" "a"]; TDone [RoomWasOnBoarded "r" "bob" "R"]]
  /\ x_log x = [(1%nat, RoomWasOnBoarded "r" "bob" "R"); (0%nat, UserWasWarned "ann" "a")].
Proof. eexists. split; [lazy; reflexivity|]. lazy. split; reflexivity. Qed.
Example C43_alone_example :
  only 0 (turns [0;0;0;0;0;0]%nat) /\ nothing_pending [(new_user, @nil event); (new_room, [])]
  /\ exists x, chat_run (mk_sys [] [(new_user, []); (new_room, [])] [TStart (OnBoardUser "ann" "Ann")]) (turns [0;0;0;0;0;0]%nat) = Some x
     /\ nth_error (x_threads x) 0 = Some (TDone [UserWasOnBoarded "ann" "Ann"]).
Proof.
  split; [intros l H; cbn in H; repeat (destruct H as [<-|H]; [eauto|]); destruct H|].
  split; [intros st p H; cbn in H; repeat (destruct H as [H|H]; [now injection H|]); destruct H|].
  eexists. split; lazy; reflexivity.
Qed.

(** * C44: the rules of the chat example *)
Notation plain_cuts ks := (forall k, In k ks -> k_cut k = None).

(** Commands one after the other, from any log, without failing reads: nobody joins a
    room they were banned from before. *)
Theorem C44_banned_never_joins_partial : forall ks L0 L insts ess before r u, plain_cuts ks ->
  chat_dispatches ks (L0, new_insts) = ((L, insts), ess) -> stored_after L0 before (RoomWasJoined r u) L ->
  forall why t, ~ In (UserWasBannedFromRoom r u why t) before.
Proof.
  intros ks L0 L insts ess A r u Cu D St why t Ban.
  destruct (history ks _ _ _ _ _ _ _ shaped_new Cu D St) as (ks1 & k & ks2 & i1 & ess1 & st & _ & _ & Sh & N & In_).
  destruct (history_room _ _ _ r In_ eq_refl) as [Es Eh]. rewrite Eh in N. destruct Sh as (on & n & rn & ron & b & ->). cbn in N. injection N as <-.
  rewrite Es, room_fold in In_. destruct (k_command k); cbn [Chat.decide] in In_; try (destruct In_ as [X|[]]; discriminate); try (destruct (negb _); [destruct In_|destruct In_ as [X|[]]; discriminate]); try destruct In_.
  destruct (negb _); [destruct In_|].
  match goal with H : In _ (if existsb _ ?B then _ else _) |- _ => destruct (existsb (String.eqb u0) B) eqn:X; [destruct H|]; destruct H as [H|[]]; injection H as -> -> end.
  assert (Y : existsb (String.eqb u) (fold_left ban (stream_events event_stream (get_stream "room" r) A) b) = true); [|congruence].
  apply in_existsb, ban_in. right. exists r, why, t. apply in_events. auto.
Qed.
Print Assumptions C44_banned_never_joins_partial.

(** A user is on-boarded at most once. *)
Theorem C44_on_boarded_once_partial : forall ks L0 L insts ess before u name, plain_cuts ks ->
  chat_dispatches ks (L0, new_insts) = ((L, insts), ess) -> stored_after L0 before (UserWasOnBoarded u name) L ->
  forall name', ~ In (UserWasOnBoarded u name') before.
Proof.
  intros ks L0 L insts ess A u name Cu D St name' Old.
  destruct (history ks _ _ _ _ _ _ _ shaped_new Cu D St) as (ks1 & k & ks2 & i1 & ess1 & st & _ & _ & Sh & N & In_).
  destruct Sh as (on & n & rn & ron & b & ->).
  destruct (k_command k); cbn in N; injection N as <-; rewrite ?room_fold, ?user_fold in In_; cbn [Chat.decide command_stream] in In_;
    repeat match goal with H : In _ (if ?b then _ else _) |- _ => let X := fresh "X" in destruct b eqn:X end;
    try contradiction; destruct In_ as [H|[]]; try discriminate. injection H as -> ->.
  apply orb_false_iff in X as [_ X].
  assert (Y : existsb opens_user (stream_events event_stream (get_stream "user" u) A) = true); [|congruence].
  apply existsb_exists. exists (UserWasOnBoarded u name'). split; [apply in_events; auto|reflexivity].
Qed.
Print Assumptions C44_on_boarded_once_partial.

(** Whoever speaks in or joins a room does so after some room was on-boarded, one that
    was the subject of an earlier command or is the subject of this one ... *)
Theorem C44_some_room_partial : forall ks L0 L insts ess before r e, plain_cuts ks ->
  chat_dispatches ks (L0, new_insts) = ((L, insts), ess) -> stored_after L0 before e L -> speaks_in r e ->
  exists k r' o, In k ks /\ command_room (k_command k) = Some r' /\ In o before /\ on_boards r' o.
Proof.
  intros ks L0 L insts ess A r e Cu D St Sp.
  destruct (history ks _ _ _ _ _ _ _ shaped_new Cu D St) as (ks1 & k & ks2 & i1 & ess1 & st & -> & D1 & Sh & N & In_).
  destruct (open_room_from ks1 _ _ _ _ _ shaped_new (fun k Hk => Cu k (proj2 (in_app_iff _ _ _) (or_introl Hk))) D1) as [_ Op].
  assert (Er : event_stream e = get_stream "room" r) by (destruct Sp as [(u & m & ->)|[(u & m & ->)|(u & ->)]]; reflexivity).
  destruct (history_room _ _ _ r In_ Er) as [Es Eh]. rewrite Eh in N. destruct Sh as (on & n & rn & ron & b & ->). cbn in N. injection N as <-.
  destruct ron.
  - destruct Op as [(n0 & b0 & X)|(k' & r' & o & Hk & Hr & Ho & Hb)].
    + exists rn, b. reflexivity.
    + discriminate.
    + exists k', r', o. split; [apply in_app_iff; now left|auto].
  - rewrite Es, room_fold in In_. cbn [orb] in In_.
    assert (X : existsb opens_room (stream_events event_stream (get_stream "room" r) A) = true).
    { destruct (existsb opens_room _); [reflexivity|]. exfalso.
      destruct (k_command k); cbn [Chat.decide negb] in In_; try contradiction; destruct In_ as [X|[]]; subst e;
        destruct Sp as [(u' & m & X)|[(u' & m & X)|(u' & X)]]; discriminate. }
    apply existsb_exists in X as (o & Ho & Hop). apply in_events in Ho as [Ho Eo]. destruct o; try discriminate.
    apply (stream_inj "room") in Eo. subst r0. exists k, r, (RoomWasOnBoarded r u name).
    split; [apply in_app_iff; right; now left|]. split; [|split; [auto|unfold on_boards; eauto]].
    destruct (k_command k); cbn in Es |- *; f_equal; try (now apply (stream_inj "room") in Es); symmetry in Es; now apply room_user in Es.
Qed.
Print Assumptions C44_some_room_partial.
(** ... so if all commands are about one room, that room was on-boarded. *)
Theorem C44_one_room_partial : forall ks L0 L insts ess before r e, plain_cuts ks ->
  chat_dispatches ks (L0, new_insts) = ((L, insts), ess) -> stored_after L0 before e L -> speaks_in r e ->
  (forall k r', In k ks -> command_room (k_command k) = Some r' -> r' = r) ->
  exists o, In o before /\ on_boards r o.
Proof.
  intros ks L0 L insts ess A r e Cu D St Sp One.
  destruct (C44_some_room_partial ks L0 L insts ess A r e Cu D St Sp) as (k & r' & o & Hk & Hr & Ho & Hb).
  rewrite (One _ _ Hk Hr) in Hb. eauto.
Qed.
Print Assumptions C44_one_room_partial.

Example C44_examples :
  plain_cuts ks_party /\ fst (fst (chat_dispatches ks_party ([], new_insts))) = party_log
  /\ stored_after [] (firstn 4 party_log) (RoomWasJoined "party" "bob") party_log
  /\ stored_after [] (firstn 1 party_log) (UserWasOnBoarded "ann" "Ann") party_log
  /\ speaks_in "party" (RoomWasJoined "party" "bob")
  /\ (forall k r', In k ks_party -> command_room (k_command k) = Some r' -> r' = "party").
Proof.
  split; [apply C43_examples|]. split; [vm_compute; reflexivity|].
  split; [eexists; split; [reflexivity|cbn; lia]|]. split; [eexists; split; [reflexivity|cbn; lia]|].
  split; [unfold speaks_in; eauto|].
  intros k r' H; cbn in H; repeat (destruct H as [<-|H]; [cbn; intros X; first [discriminate X|injection X as <-; reflexivity]|]); destruct H.
Qed.

(** Messages are posted to a room that was never on-boarded: on-boarding any other room
    is enough, once a second command was about it. *)
Theorem C44_not_on_boarded_refuted : forall a b u msg, a <> b ->
  fst (fst (chat_dispatches (map plain [OnBoardRoom a u a; JoinRoom a u; SendMessageToRoom b u msg; JoinRoom b u]) ([], new_insts)))
  = [RoomWasOnBoarded a u a; RoomWasJoined a u; MessageWasSentToRoom b u msg; RoomWasJoined b u].
Proof.
  intros a b u msg N.
  assert (X : String.eqb (get_stream "room" a) (get_stream "room" b) = false).
  { apply String.eqb_neq. intros H. apply N. now apply (stream_inj "room") in H. }
  play X.
Qed.
Print Assumptions C44_not_on_boarded_refuted.
(** Who was banned from one room cannot join another one. *)
Theorem C44_ban_leaks_refuted : forall a b u why t, a <> b ->
  snd (chat_dispatches (map plain [BanUserFromRoom a u why t; RemoveUserFromRoom a u why; OnBoardRoom b u b; JoinRoom b u]) ([], new_insts))
  = [[UserWasBannedFromRoom a u why t]; [UserWasRemovedFromRoom a u why]; [RoomWasOnBoarded b u b]; []].
Proof.
  intros a b u why t N.
  assert (X : String.eqb (get_stream "room" a) (get_stream "room" b) = false).
  { apply String.eqb_neq. intros H. apply N. now apply (stream_inj "room") in H. }
  play X.
Qed.
Print Assumptions C44_ban_leaks_refuted.
(** With commands at the same time a banned user joins: the join was decided before the
    ban was stored.  With a failing read too. *)
Theorem C44_banned_joins_refuted :
  (exists x, chat_run (mk_sys [(0%nat, RoomWasOnBoarded "party" "ann" "Party")] [(new_user, []); (new_room, [])] [])
       ([LBegin (JoinRoom "party" "bob"); LBegin (BanUserFromRoom "party" "bob" "rude" 60)] ++ turns [0;0;0;0;0;1;1;1;1;1;1;1;0;0]%nat) = Some x
     /\ map snd (x_log x) = [RoomWasOnBoarded "party" "ann" "Party"; UserWasBannedFromRoom "party" "bob" "rude" 60; RoomWasJoined "party" "bob"])
  /\ (forall r u, snd (chat_dispatch (JoinRoom r u) (Some 1%nat) [] ([RoomWasOnBoarded r u r; UserWasBannedFromRoom r u "rude" 60], new_insts)) = [RoomWasJoined r u]).
Proof.
  split; [eexists; split; [lazy; reflexivity|lazy; reflexivity]|]. intros r u.
  unfold chat_dispatch, dispatch. rewrite route_handler. unfold read, stream_events. cbn -[get_stream String.eqb]. rewrite !String.eqb_refl. reflexivity.
Qed.
Print Assumptions C44_banned_joins_refuted.

(** ** The processor of restricted words *)

(** The application on any log, however the commands of its users, the projection and
    the processor interleave: the rules above hold ... *)
Theorem C44_application_partial : forall L0 ms before e, stored_after L0 before e (log (moves (new_app L0) ms)) ->
  (forall r u why t, e = RoomWasJoined r u -> ~ In (UserWasBannedFromRoom r u why t) before)
  /\ (forall u name name', e = UserWasOnBoarded u name -> ~ In (UserWasOnBoarded u name') before).
Proof.
  intros L0 ms A e St. destruct (moves_dispatch (new_app L0) ms) as (cs & W). unfold log in St. rewrite W in St. cbn [new_app a_world] in St.
  destruct (chat_dispatches (map plain cs) (L0, new_insts)) as [[L i] ess] eqn:D. cbn [fst] in St.
  split.
  - intros r u why t ->. eapply C44_banned_never_joins_partial; eauto using plain_plain.
  - intros u name name' ->. eapply C44_on_boarded_once_partial; eauto using plain_plain.
Qed.
Print Assumptions C44_application_partial.

(** ... and when the processor comes to an event, it does this: nothing, unless it is a
    message with a restricted word; if the projection has counted two warnings of the
    user or more, it removes and bans them; otherwise it warns them. *)
Theorem C44_reaction : forall L0 ms e, let a := moves (new_app L0) ms in
  nth_error (log a) (a_seen a) = Some e ->
  let L' := log (move_app a MReact) in
  ((forall r u msg, e = MessageWasSentToRoom r u msg -> ~ restricted msg) -> L' = log a)
  /\ (forall r u msg, e = MessageWasSentToRoom r u msg -> restricted msg -> 2 <= warnings u (firstn (a_counted a) (log a)) ->
      L' = log a ++ [UserWasRemovedFromRoom r u "language"; UserWasBannedFromRoom r u "language" 3600])
  /\ (forall r u msg, e = MessageWasSentToRoom r u msg -> restricted msg -> warnings u (firstn (a_counted a) (log a)) < 2 ->
      (L' = log a ++ [PrivateMessageWasSentToRoom r u "you have been warned"; UserWasWarned u "language"]
       \/ L' = log a ++ [UserWasWarned u "language"])
      /\ ((exists o, In o (log a) /\ on_boards r o) -> L' = log a ++ [PrivateMessageWasSentToRoom r u "you have been warned"; UserWasWarned u "language"])).
Proof.
  intros L0 ms e a Ne L'. pose proof (moves_shaped L0 ms) as Sh. fold a in Sh. subst L'.
  unfold move_app. change (fst (a_world a)) with (log a). rewrite Ne. unfold log at 1 3 5 7 9. cbn [a_world]. rewrite (world_pair a).
  split; [|split].
  - intros H. destruct e; try reflexivity. cbn [react]. destruct (contains_restricted_word msg) eqn:R; [|reflexivity].
    exfalso. apply restricted_iff in R. exact (H _ _ _ eq_refl R).
  - intros r u msg -> R W. apply restricted_iff in R. unfold react. rewrite R, count_is. change warn_threshold with 2. change ban_timeout with 3600.
    apply N.leb_le in W. rewrite W. now apply remove_and_ban.
  - intros r u msg -> R W. apply restricted_iff in R. unfold react. rewrite R, count_is. change warn_threshold with 2. change ban_timeout with 3600.
    apply N.leb_gt in W. rewrite W. now apply tell_and_warn.
Qed.
Print Assumptions C44_reaction.

(** When nobody gives the commands to remove or ban: whoever was removed from or banned
    from a room had written a restricted word there and had been warned twice. *)
Theorem C44_expelled_only_after_two_warnings : forall L0 ms before e r u,
  (forall c, In (MDispatch c) ms -> ~ expelling c) ->
  stored_after L0 before e (log (moves (new_app L0) ms)) -> expels r u e ->
  exists msg, In (MessageWasSentToRoom r u msg) before /\ restricted msg /\ 2 <= warnings u before.
Proof. intros L0 ms A e r u H St X. exact (proj2 (expelled_for_a_reason L0 ms H) A e St r u X). Qed.
Print Assumptions C44_expelled_only_after_two_warnings.

(** When the processor comes to a restricted word and the projection has counted all
    warnings, it decides by the warnings in the log. *)
Theorem C44_caught_up_partial : forall L0 ms r u msg, let a := moves (new_app L0) ms in
  nth_error (log a) (a_seen a) = Some (MessageWasSentToRoom r u msg) -> restricted msg -> a_counted a = length (log a) ->
  (2 <= warnings u (log a) <->
   log (move_app a MReact) = log a ++ [UserWasRemovedFromRoom r u "language"; UserWasBannedFromRoom r u "language" 3600]).
Proof.
  intros L0 ms r u msg a Ne R Co. destruct (C44_reaction L0 ms _ Ne) as (_ & H2 & H3). fold a in H2, H3.
  rewrite Co, firstn_all in H2, H3. split; [intros W; exact (H2 _ _ _ eq_refl R W)|].
  intros X. destruct (N.le_gt_cases 2 (warnings u (log a))) as [W|W]; [auto|]. exfalso.
  destruct (H3 _ _ _ eq_refl R W) as [[Y|Y] _]; rewrite Y in X; apply app_inv_head in X; discriminate.
Qed.
Print Assumptions C44_caught_up_partial.

Definition golly_log : list event :=
  [RoomWasOnBoarded "party" "ann" "Party"; MessageWasSentToRoom "party" "bob" "Golly!";
   PrivateMessageWasSentToRoom "party" "bob" "you have been warned"; UserWasWarned "bob" "language";
   MessageWasSentToRoom "party" "bob" "oh GADZOOKS";
   PrivateMessageWasSentToRoom "party" "bob" "you have been warned"; UserWasWarned "bob" "language";
   MessageWasSentToRoom "party" "bob" "dagnabitdagnabit"].
(** Warnings from before the application was started are always counted. *)
Theorem C44_old_warnings_partial : forall L0 ms r u msg, let a := moves (new_app L0) ms in
  nth_error (log a) (a_seen a) = Some (MessageWasSentToRoom r u msg) -> restricted msg -> 2 <= warnings u L0 ->
  log (move_app a MReact) = log a ++ [UserWasRemovedFromRoom r u "language"; UserWasBannedFromRoom r u "language" 3600].
Proof.
  intros L0 ms r u msg a Ne R W. destruct (C44_reaction L0 ms _ Ne) as (_ & H2 & _). fold a in H2. apply (H2 _ _ _ eq_refl R).
  destruct (counted_ge L0 ms) as (Le & new & E). fold a in Le, E. rewrite E, firstn_app, firstn_all2, warnings_app by exact Le. lia.
Qed.
Print Assumptions C44_old_warnings_partial.
Example C44_old_warnings_example :
  let L0 := firstn 7 golly_log in let a := moves (new_app L0) [MDispatch (SendMessageToRoom "party" "bob" "golly")] in
  nth_error (log a) (a_seen a) = Some (MessageWasSentToRoom "party" "bob" "golly") /\ 2 <= warnings "bob" L0.
Proof. split; [vm_compute; reflexivity|vm_compute; discriminate]. Qed.

Definition golly : list move :=
  [MDispatch (OnBoardRoom "party" "ann" "Party"); MDispatch (SendMessageToRoom "party" "bob" "Golly!"); MReact; MReact;
   MDispatch (SendMessageToRoom "party" "bob" "oh GADZOOKS"); MReact; MReact; MReact; MDispatch (SendMessageToRoom "party" "bob" "dagnabitdagnabit"); MReact; MReact].
Example C44_reaction_example :
  let a := moves (new_app []) (golly ++ repeat MCount 8) in
  log a = golly_log /\ a_counted a = length (log a) /\ nth_error (log a) (a_seen a) = Some (MessageWasSentToRoom "party" "bob" "dagnabitdagnabit")
  /\ restricted "dagnabitdagnabit" /\ restricted "oh GADZOOKS" /\ ~ restricted "gollie, dag nabit" /\ 2 <= warnings "bob" (log a)
  /\ log (move_app a MReact) = golly_log ++ [UserWasRemovedFromRoom "party" "bob" "language"; UserWasBannedFromRoom "party" "bob" "language" 3600]
  /\ (forall c, In (MDispatch c) (golly ++ repeat MCount 8 ++ [MReact]) -> ~ expelling c).
Proof.
  cbv zeta. split; [vm_compute; reflexivity|]. split; [vm_compute; reflexivity|]. split; [vm_compute; reflexivity|].
  split; [apply restricted_iff; vm_compute; reflexivity|]. split; [apply restricted_iff; vm_compute; reflexivity|].
  split; [rewrite <- restricted_iff; vm_compute; discriminate|]. split; [vm_compute; discriminate|]. split; [vm_compute; reflexivity|].
  intros c H X. cbn in H. repeat (destruct H as [H|H]; [try discriminate H; injection H as <-; destruct X as [(? & ? & ? & X)|(? & ? & ? & ? & X)]; discriminate X|]). destruct H.
Qed.

(** While the projection lags behind, a user who was warned twice, or any number of
    times, is warned again. *)
Fixpoint rant (n : nat) : list move :=
  match n with O => [] | S n' => MDispatch (SendMessageToRoom "party" "bob" "golly") :: MReact :: MReact :: MReact :: rant n' end.
Theorem C44_lag_refuted : exists ms L, log (moves (new_app []) ms) = L
  /\ warnings "bob" L = 4 /\ (forall A e r u, stored_after [] A e L -> ~ expels r u e).
Proof.
  exists (MDispatch (OnBoardRoom "party" "ann" "Party") :: MReact :: rant 4). eexists. split; [vm_compute; reflexivity|]. split; [vm_compute; reflexivity|].
  intros A e r u (B & E & _) X. assert (H : In e (A ++ e :: B)) by (apply in_app_iff; right; now left). rewrite <- E in H.
  cbn in H. repeat (destruct H as [<-|H]; [destruct X as [(? & X)|(? & ? & X)]; discriminate X|]). destruct H.
Qed.
Print Assumptions C44_lag_refuted.

(** What the log holds when the application starts is not looked at: a restricted word
    written just before a restart has no consequences, whatever happens but commands. *)
Theorem C44_restart_refuted : forall L ms, (forall m, In m ms -> m = MCount \/ m = MReact) -> log (moves (new_app L) ms) = L.
Proof.
  intros L ms H. assert (X : a_world (moves (new_app L) ms) = (L, new_insts) /\ a_seen (moves (new_app L) ms) = length L); [|unfold log; now rewrite (proj1 X)].
  induction ms as [|m ms IH] using rev_ind; [split; reflexivity|]. destruct IH as [W Se].
  { intros m' Hm. apply H, in_app_iff. now left. }
  rewrite moves_snoc. destruct (H m (proj2 (in_app_iff ms [m] m) (or_intror (or_introl eq_refl)))) as [-> | ->]; cbn [move_app].
  - destruct (Nat.ltb _ _); auto.
  - rewrite W, Se. cbn [fst]. assert (nth_error L (length L) = None) as -> by now apply nth_error_None. auto.
Qed.
Print Assumptions C44_restart_refuted.
Example C44_restart_example :
  let L := golly_log in nth_error L 7 = Some (MessageWasSentToRoom "party" "bob" "dagnabitdagnabit") /\ 2 <= warnings "bob" L
  /\ log (moves (new_app L) [MReact; MCount; MReact]) = L.
Proof. cbv zeta. split; [reflexivity|]. split; [vm_compute; discriminate|vm_compute; reflexivity]. Qed.
