(** The chat example, examples/chat. *)
From Verif Require Import Base Core Text JsonText Cqrs.
Open Scope string_scope.
Open Scope N_scope.
Open Scope list_scope.

(** examples/chat/room_commands.go, user_commands.go. *)
Inductive command :=
| OnBoardRoom (r u name : string)
| JoinRoom (r u : string)
| SendMessageToRoom (r u msg : string)
| SendPrivateMessageToRoom (r target msg : string)
| RemoveUserFromRoom (r u reason : string)
| BanUserFromRoom (r u reason : string) (timeout : N)
| OnBoardUser (u name : string)
| WarnUser (u reason : string).

(** examples/chat/room_events.go, user_events.go. *)
Inductive event :=
| RoomWasOnBoarded (r u name : string)
| RoomWasJoined (r u : string)
| MessageWasSentToRoom (r u msg : string)
| PrivateMessageWasSentToRoom (r target msg : string)
| UserWasRemovedFromRoom (r u reason : string)
| UserWasBannedFromRoom (r u reason : string) (timeout : N)
| UserWasOnBoarded (u name : string)
| UserWasWarned (u reason : string).

(** room_events_gen.go:6-28, user_events_gen.go: AggregateType and AggregateID, joined by
    rangedb.GetEventStream. *)
Definition event_stream (e : event) : string :=
  match e with
  | RoomWasOnBoarded r _ _ | RoomWasJoined r _ | MessageWasSentToRoom r _ _ | PrivateMessageWasSentToRoom r _ _
  | UserWasRemovedFromRoom r _ _ | UserWasBannedFromRoom r _ _ _ => get_stream "room" r
  | UserWasOnBoarded u _ | UserWasWarned u _ => get_stream "user" u
  end.
(** room_commands_gen.go, user_commands_gen.go. *)
Definition command_stream (c : command) : string :=
  match c with
  | OnBoardRoom r _ _ | JoinRoom r _ | SendMessageToRoom r _ _ | SendPrivateMessageToRoom r _ _
  | RemoveUserFromRoom r _ _ | BanUserFromRoom r _ _ _ => get_stream "room" r
  | OnBoardUser u _ | WarnUser u _ => get_stream "user" u
  end.
Definition command_type (c : command) : string :=
  match c with
  | OnBoardRoom _ _ _ => "OnBoardRoom" | JoinRoom _ _ => "JoinRoom"
  | SendMessageToRoom _ _ _ => "SendMessageToRoom" | SendPrivateMessageToRoom _ _ _ => "SendPrivateMessageToRoom"
  | RemoveUserFromRoom _ _ _ => "RemoveUserFromRoom" | BanUserFromRoom _ _ _ _ => "BanUserFromRoom"
  | OnBoardUser _ _ => "OnBoardUser" | WarnUser _ _ => "WarnUser"
  end.

(** room_aggregate.go:14-18, user_aggregate.go:14-17; the set of banned users is a list
    without repetition. *)
Inductive state :=
| Room (name : string) (on_boarded : bool) (banned : list string)
| User (on_boarded : bool) (name : string).

(** room_aggregate.go:21-27, user_aggregate.go:20-22. *)
Definition new_room : state := Room "" false [].
Definition new_user : state := User false "".

(** room_aggregate_gen.go:21-61 with room_aggregate.go:29-36 and 107-110;
    user_aggregate_gen.go:21-37 with user_aggregate.go:24-27 and 47. *)
Definition apply (st : state) (e : event) : state :=
  match st, e with
  | Room _ _ banned, RoomWasOnBoarded _ _ name => Room name true banned
  | Room name on banned, UserWasBannedFromRoom _ u _ _ =>
      Room name on (if existsb (String.eqb u) banned then banned else banned ++ [u])
  | User _ _, UserWasOnBoarded _ name => User true name
  | _, _ => st
  end.

(** room_aggregate_gen.go:63-102 with room_aggregate.go:38-105;
    user_aggregate_gen.go:39-54 with user_aggregate.go:29-45. *)
Definition decide (st : state) (c : command) : list event :=
  match st, c with
  | Room _ _ _, OnBoardRoom r u name => [RoomWasOnBoarded r u name]
  | Room _ on banned, JoinRoom r u =>
      if negb on then [] else if existsb (String.eqb u) banned then [] else [RoomWasJoined r u]
  | Room _ on _, SendMessageToRoom r u msg => if negb on then [] else [MessageWasSentToRoom r u msg]
  | Room _ on _, SendPrivateMessageToRoom r u msg => if negb on then [] else [PrivateMessageWasSentToRoom r u msg]
  | Room _ _ _, RemoveUserFromRoom r u reason => [UserWasRemovedFromRoom r u reason]
  | Room _ _ _, BanUserFromRoom r u reason timeout => [UserWasBannedFromRoom r u reason timeout]
  | User on _, OnBoardUser u name => if on then [] else [UserWasOnBoarded u name]
  | User _ _, WarnUser u reason => [UserWasWarned u reason]
  | _, _ => []
  end.

(** chat.go:14-20 with room_aggregate_gen.go:112-121 and user_aggregate_gen.go:64-69. *)
Definition registered : list (list string) :=
  [["OnBoardUser"; "WarnUser"];
   ["OnBoardRoom"; "JoinRoom"; "SendMessageToRoom"; "SendPrivateMessageToRoom"; "RemoveUserFromRoom"; "BanUserFromRoom"]].
Definition new_insts : list state := [new_user; new_room].

Definition chat_dispatch := dispatch event_stream command_stream command_type apply decide registered.
Definition chat_dispatches := dispatches event_stream command_stream command_type apply decide registered.
Definition chat_run := run event_stream command_stream command_type apply decide registered.

(** * Restricted words *)

(** strings.ToLower, as far as it matters for words of ASCII letters: besides A-Z two
    characters have a lower case in ASCII, U+0130 (i) and U+212A (k); other bytes are
    left as they are (simplification: their lower case is not ASCII either). *)
Definition lower_byte (a : ascii) : ascii :=
  let n := N_of_ascii a in if (65 <=? n) && (n <=? 90) then ascii_of_N (n + 32) else a.
Fixpoint lower (s : string) : string :=
  match s with
  | EmptyString => EmptyString
  | String a rest =>
      match rest with
      | EmptyString => String (lower_byte a) (lower rest)
      | String b rest2 =>
          if (N_of_ascii a =? 196) && (N_of_ascii b =? 176) then String "i" (lower rest2)
          else match rest2 with
               | EmptyString => String (lower_byte a) (lower rest)
               | String c rest3 =>
                   if (N_of_ascii a =? 226) && (N_of_ascii b =? 132) && (N_of_ascii c =? 170) then String "k" (lower rest3)
                   else String (lower_byte a) (lower rest)
               end
      end
  end.

(** restricted_word_processor.go:10-16, 69-79. *)
Definition warn_threshold : N := 2.
Definition ban_timeout : N := 3600.
Definition restricted_words : list string := ["golly"; "dagnabit"; "gadzooks"].
Definition contains_restricted_word (msg : string) : bool := existsb (fun word => contains word (lower msg)) restricted_words.

(** restricted_word_processor.go:31-63 [Accept]: the commands it dispatches, one after
    the other; [warnings]: what the projection counts for the user. *)
Definition react (warnings : string -> N) (e : event) : list command :=
  match e with
  | MessageWasSentToRoom r u msg =>
      if contains_restricted_word msg then
        if warn_threshold <=? warnings u
        then [RemoveUserFromRoom r u "language"; BanUserFromRoom r u "language" ban_timeout]
        else [SendPrivateMessageToRoom r u "you have been warned"; WarnUser u "language"]
      else []
  | _ => []
  end.

(** warned_users_projection.go:21-41: the warnings of a user among the records accepted. *)
Definition count_warnings (u : string) (L : list event) : N :=
  N.of_nat (length (filter (fun e => match e with UserWasWarned u' _ => String.eqb u' u | _ => false end) L)).

(** * The application *)

(** chat.go:13-41 [New] and what runs afterwards.  [a_world]: the log and the two
    aggregates; [a_counted]: how many events of the log the projection of warned users
    has accepted (from the first on, chat.go:29); [a_seen]: how far the processor of
    restricted words has come (from those saved after New on, 35).  Both follow the log
    in order, each at its own pace, and miss nothing (C21, C22 for subscribers that
    keep up).  Dispatches happen one at a time. *)
Record app := mk_app { a_world : list event * list state; a_counted : nat; a_seen : nat }.

(** New on a store that holds [L] (simplification: nothing is saved while New runs). *)
Definition new_app (L : list event) : app := mk_app (L, new_insts) (length L) (length L).

Inductive move :=
| MDispatch (c : command)       (* somebody dispatches a command *)
| MCount                        (* the projection accepts one more event *)
| MReact.                       (* the processor accepts one more event *)

Definition plain (c : command) : call command := mk_call c None [].
Definition move_app (a : app) (m : move) : app :=
  match m with
  | MDispatch c => mk_app (fst (chat_dispatch c None [] (a_world a))) (a_counted a) (a_seen a)
  | MCount => if Nat.ltb (a_counted a) (length (fst (a_world a)))
              then mk_app (a_world a) (Datatypes.S (a_counted a)) (a_seen a) else a
  | MReact =>
      match nth_error (fst (a_world a)) (a_seen a) with
      | None => a
      | Some e =>
          let warnings u := count_warnings u (firstn (a_counted a) (fst (a_world a))) in
          mk_app (fst (chat_dispatches (map plain (react warnings e)) (a_world a))) (a_counted a) (Datatypes.S (a_seen a))
      end
  end.
Definition moves (a : app) (ms : list move) : app := fold_left move_app ms a.
