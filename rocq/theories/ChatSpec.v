(** Vocabulary of the statements about the chat example. *)
From Verif Require Import Base Chat.
Open Scope string_scope.
Open Scope N_scope.
Open Scope list_scope.

(** In the log [L] the event [e] comes right after the events [before]; it is not one
    of those the log began with, [L0]. *)
Definition stored_after (L0 before : list event) (e : event) (L : list event) : Prop :=
  exists later, L = before ++ e :: later /\ (length L0 <= length before)%nat.

(** A text that spells a word, in small or capital letters; U+0130 stands for an i too
    and U+212A (the Kelvin sign) for a k. *)
Inductive spells : string -> string -> Prop :=
| spells_nothing : spells "" ""
| spells_same a w s : spells w s -> spells (String a w) (String a s)
| spells_capital a b w s : 65 <= N_of_ascii b -> N_of_ascii b <= 90 -> N_of_ascii a = N_of_ascii b + 32 ->
    spells w s -> spells (String a w) (String b s)
| spells_dotted w s : spells w s -> spells (String "i" w) (String (ascii_of_N 196) (String (ascii_of_N 176) s))
| spells_kelvin w s : spells w s ->
    spells (String "k" w) (String (ascii_of_N 226) (String (ascii_of_N 132) (String (ascii_of_N 170) s))).

(** A word of the list occurs in the message. *)
Definition restricted (msg : string) : Prop :=
  exists word text before after, In word ["golly"; "dagnabit"; "gadzooks"] /\ spells word text
    /\ msg = (before ++ text ++ after)%string.

(** How often a user was warned. *)
Fixpoint warnings (u : string) (L : list event) : N :=
  match L with
  | [] => 0
  | UserWasWarned u' _ :: L' => (if String.eqb u' u then 1 else 0) + warnings u L'
  | _ :: L' => warnings u L'
  end.

(** The room a command or an event is about. *)
Definition command_room (c : command) : option string :=
  match c with
  | OnBoardRoom r _ _ | JoinRoom r _ | SendMessageToRoom r _ _ | SendPrivateMessageToRoom r _ _
  | RemoveUserFromRoom r _ _ | BanUserFromRoom r _ _ _ => Some r
  | OnBoardUser _ _ | WarnUser _ _ => None
  end.
(** Events that say something in a room. *)
Definition speaks_in (r : string) (e : event) : Prop :=
  (exists u m, e = MessageWasSentToRoom r u m) \/ (exists u m, e = PrivateMessageWasSentToRoom r u m) \/ (exists u, e = RoomWasJoined r u).
Definition on_boards (r : string) (e : event) : Prop := exists u name, e = RoomWasOnBoarded r u name.
(** Events by which a user loses access to a room. *)
Definition expels (r u : string) (e : event) : Prop :=
  (exists why, e = UserWasRemovedFromRoom r u why) \/ (exists why t, e = UserWasBannedFromRoom r u why t).
Definition expelling (c : command) : Prop :=
  (exists r u why, c = RemoveUserFromRoom r u why) \/ (exists r u why t, c = BanUserFromRoom r u why t).

Definition log (a : app) : list event := fst (a_world a).
