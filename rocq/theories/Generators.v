(** Model of the code generators for commands, aggregates and event binders:
    pkg/structparser, pkg/commandgenerator, pkg/aggregategenerator, gen/eventbinder. *)
From Coq Require Import PeanoNat.
From Verif Require Import Base DecText Text JsonText.
Open Scope string_scope.
Open Scope N_scope.

Definition newline : ascii := "010".
Definition tab : string := String "009" "".

(** A generated text, line by line; each line is ended by a newline. *)
Fixpoint render (lines : list string) : string :=
  match lines with
  | [] => ""
  | l :: rest => l ++ String newline (render rest)
  end.

(** * structparser *)

(** A Go file as the visitor sees it: type specifications with a struct type, other type
    specifications, functions with the declarations of their bodies.  (Everything else
    in a file is passed over.) *)
Inductive decl :=
| StructType (name : string)
| OtherType (name : string)
| Func (body : list decl).

(** struct_names.go:12-37 [GetStructNames], [Visit]: ast.Walk goes into function bodies. *)
Fixpoint struct_names_of (d : decl) : list string :=
  match d with
  | StructType n => [n]
  | OtherType _ => []
  | Func body => (fix go l := match l with [] => [] | x :: r => app (struct_names_of x) (go r) end) body
  end.
Definition struct_names (file : list decl) : list string := flat_map struct_names_of file.

(** * lcFirst *)

(** The character a text begins with (utf8.DecodeRune). *)
Definition first_rune (s : string) : N :=
  let at_ i := match String.get i s with Some a => N_of_ascii a | None => 0 end in
  match rune_len s with
  | 1%nat => at_ 0%nat
  | 2%nat => (at_ 0%nat - 192) * 64 + (at_ 1%nat - 128)
  | 3%nat => (at_ 0%nat - 224) * 4096 + (at_ 1%nat - 128) * 64 + (at_ 2%nat - 128)
  | 4%nat => (at_ 0%nat - 240) * 262144 + (at_ 1%nat - 128) * 4096 + (at_ 2%nat - 128) * 64 + (at_ 3%nat - 128)
  | _ => 65533
  end.

Section Gen.
(** unicode.ToLower above ASCII. *)
Variable lower_above : N -> N.

(** unicode.ToLower *)
Definition to_lower (u : N) : N := if u <? 128 then (if between 65 90 u then u + 32 else u) else lower_above u.

(** write_aggregate.go:36-41 [lcFirst]: the rest begins after the first byte. *)
Definition lc_first (s : string) : string :=
  match s with
  | EmptyString => ""
  | String a rest => utf8 (to_lower (first_rune s)) ++ rest
  end.

(** * aggregategenerator *)

(** write_aggregate.go:73-79, 89-95: the cases of one type; [v]: the name the switch binds. *)
Definition case_lines (v c : string) : list string :=
  [""; tab ++ "case " ++ c ++ ":"; tab ++ tab ++ "a." ++ lc_first c ++ "(" ++ v ++ ")";
   ""; tab ++ "case *" ++ c ++ ":"; tab ++ tab ++ "a." ++ lc_first c ++ "(*" ++ v ++ ")"].

Definition no_strings (l : list string) : bool := match l with [] => true | _ => false end.

Definition handle_header (name : string) : string := "func (a *" ++ name ++ ") Handle(command cqrs.Command) []rangedb.Event {".
Definition apply_header (name : string) : string := "func (a *" ++ name ++ ") apply(event rangedb.Event) {".
Definition types_header (name : string) : string := "func (a *" ++ name ++ ") CommandTypes() []string {".

(** write_aggregate.go:47-119 [fileTemplate], as lines; 14-27 [Write] refuses when there
    are neither commands nor events. *)
Definition preamble (stamp pkg : string) : list string :=
  ["// Code generated by go generate; DO NOT EDIT."; "// This file was generated at"; "// " ++ stamp; "package " ++ pkg; "";
   "import ("; tab ++ """github.com/inklabs/rangedb"""; tab ++ """github.com/inklabs/rangedb/pkg/cqrs"""; ")"; ""].
Definition load_lines (name : string) (events : list string) : list string :=
  app ["func (a *" ++ name ++ ") Load(recordIterator rangedb.RecordIterator) {"; tab ++ "for recordIterator.Next() {"]
  (app (if no_strings events then [] else
     [tab ++ tab ++ "if recordIterator.Err() == nil {";
      tab ++ tab ++ tab ++ "if event, ok := recordIterator.Record().Data.(rangedb.Event); ok {";
      tab ++ tab ++ tab ++ tab ++ "a.apply(event)"; tab ++ tab ++ tab ++ "}"; tab ++ tab ++ "}"])
   [tab ++ "}"; "}"; ""]).
Definition apply_lines (name : string) (events : list string) : list string :=
  if no_strings events then [] else
  app [apply_header name; tab ++ "switch e := event.(type) {"] (app (flat_map (case_lines "e") events) [""; tab ++ "}"; "}"; ""]).
Definition handle_lines (name : string) (commands : list string) : list string :=
  app [handle_header name]
  (app (if no_strings commands then [] else
     app [tab ++ "switch c := command.(type) {"] (app (flat_map (case_lines "c") commands) [""; tab ++ "}"; ""]))
   [tab ++ "defer a.resetPendingEvents()"; tab ++ "return a.pendingEvents"; "}"; ""]).
Definition rest_lines (name : string) (commands : list string) : list string :=
  app ["func (a *" ++ name ++ ") resetPendingEvents() {"; tab ++ "a.pendingEvents = nil"; "}"; "";
       types_header name; tab ++ "return []string{"]
  (app (map (fun c => tab ++ tab ++ c ++ "{}.CommandType(),") commands)
   [tab ++ "}"; "}"; ""; "func (a *" ++ name ++ ") raise(events ...rangedb.Event) {";
    tab ++ "a.pendingEvents = append(a.pendingEvents, events...)"; "}"]).

Definition aggregate_lines (stamp pkg name : string) (commands events : list string) : list string :=
  app (preamble stamp pkg) (app (load_lines name events) (app (apply_lines name events) (app (handle_lines name commands) (rest_lines name commands)))).

Definition write_aggregate (stamp pkg name : string) (commands events : list string) : option string :=
  if no_strings commands && no_strings events then None else Some (render (aggregate_lines stamp pkg name commands events)).
End Gen.

(** * commandgenerator *)

(** write_command.go:34-45 [fileTemplate], 12-24 [Write]. *)
Definition method_lines (id type c : string) : list string :=
  [""; "func (c " ++ c ++ ") AggregateID() string   { return c." ++ id ++ " }";
   "func (c " ++ c ++ ") AggregateType() string { return """ ++ type ++ """ }";
   "func (c " ++ c ++ ") CommandType() string   { return """ ++ c ++ """ }"].
Definition write_commands (stamp pkg id type : string) (commands : list string) : option string :=
  if no_strings commands then None
  else Some (render (app ["// Code generated by go generate; DO NOT EDIT."; "// This file was generated at"; "// " ++ stamp; "package " ++ pkg]
                         (flat_map (method_lines id type) commands))).

(** * gen/eventbinder *)

(** main.go:71-83 [fileTemplate], 41-56 [writeEventBinder]: also for no events. *)
Definition binder_text (stamp pkg : string) (events : list string) : string :=
  render (app ["// Code generated by go generate; DO NOT EDIT."; "// This file was generated at"; "// " ++ stamp; "package " ++ pkg; "";
               "import ""github.com/inklabs/rangedb"""; ""; "func BindEvents(binder rangedb.EventBinder) {"; tab ++ "binder.Bind("]
              (app (map (fun e => tab ++ tab ++ "&" ++ e ++ "{},") events) [tab ++ ")"; "}"])).
