(** Theorems about generated code: C94 (aggregates), C95 (commands and event binders). *)
From Coq Require Import PeanoNat.
From Verif Require Import Base DecText Text JsonText JsonTextSpec Generators GeneratorsSpec GeneratorsProofs.
Open Scope string_scope.
Open Scope N_scope.

(** * C94: generated aggregates *)

(** The first lines of the generated Handle and apply. *)
Definition handle (name : string) : string := "func (a *" ++ name ++ ") Handle(command cqrs.Command) []rangedb.Event {".
Definition apply_ (name : string) : string := "func (a *" ++ name ++ ") apply(event rangedb.Event) {".

Lemma written lower stamp pkg name commands events text : write_aggregate lower stamp pkg name commands events = Some text ->
  text = render (aggregate_lines lower stamp pkg name commands events).
Proof. unfold write_aggregate. destruct (no_strings commands && no_strings events); congruence. Qed.

(** Handle runs, for a command or a pointer to one, the method of that command and no
    other, and nothing for a value of any other type.  Names begin with A to Z. *)
Theorem C94_handle_partial : forall lower stamp pkg name commands events text,
  write_aggregate lower stamp pkg name commands events = Some text ->
  lacks newline stamp = true -> lacks newline pkg = true -> go_name name -> Forall exported commands -> Forall exported events ->
  (forall c, In c commands ->
     runs text (handle name) c = Some (call (method_of c) "c") /\ runs text (handle name) ("*" ++ c) = Some (call (method_of c) "*c"))
  /\ (forall t, (forall c, In c commands -> t <> c /\ t <> "*" ++ c) -> runs text (handle name) t = None).
Proof.
  intros lower stamp pkg name commands events text W Hs Hp Hn Hc He. apply written in W. subst text.
  change (handle name) with (fn name "Handle(command cqrs.Command) []rangedb.Event {"). split.
  - intros c Hi. rewrite !handle_runs by assumption. split; [now apply picked_value|now apply (picked_pointer "c")].
  - intros t Ht. rewrite handle_runs by assumption. now apply picked_none.
Qed.
Print Assumptions C94_handle_partial.

(** apply, which Load calls for every event, does the same with events. *)
Theorem C94_apply_partial : forall lower stamp pkg name commands events text,
  write_aggregate lower stamp pkg name commands events = Some text ->
  lacks newline stamp = true -> lacks newline pkg = true -> go_name name -> Forall exported commands -> Forall exported events ->
  (forall e, In e events ->
     runs text (apply_ name) e = Some (call (method_of e) "e") /\ runs text (apply_ name) ("*" ++ e) = Some (call (method_of e) "*e"))
  /\ (forall t, (forall e, In e events -> t <> e /\ t <> "*" ++ e) -> runs text (apply_ name) t = None).
Proof.
  intros lower stamp pkg name commands events text W Hs Hp Hn Hc He. apply written in W. subst text.
  change (apply_ name) with (fn name "apply(event rangedb.Event) {"). split.
  - intros c Hi. rewrite !apply_runs by assumption. split; [now apply picked_value|now apply (picked_pointer "e")].
  - intros t Ht. rewrite apply_runs by assumption. now apply picked_none.
Qed.
Print Assumptions C94_apply_partial.

(** CommandTypes lists the type of every command, in order, and nothing else: it is
    what cqrs.New routes by. *)
Theorem C94_command_types_partial : forall lower stamp pkg name commands events text,
  write_aggregate lower stamp pkg name commands events = Some text ->
  lacks newline stamp = true -> lacks newline pkg = true -> go_name name -> Forall exported commands -> Forall exported events ->
  body_of ("func (a *" ++ name ++ ") CommandTypes() []string {") (lines_of text)
  = app [tab ++ "return []string{"] (app (map (fun c => tab ++ tab ++ c ++ "{}.CommandType(),") commands) [tab ++ "}"]).
Proof.
  intros lower stamp pkg name commands events text W Hs Hp Hn Hc He. apply written in W. subst text.
  rewrite aggregate_lines_back by assumption. now apply (types_body lower stamp pkg name commands events).
Qed.
Print Assumptions C94_command_types_partial.

(** Two commands never share a method. *)
Theorem C94_methods_differ_partial : forall c c', exported c -> exported c' -> method_of c = method_of c' -> c = c'.
Proof. exact method_inj. Qed.
Print Assumptions C94_methods_differ_partial.

(** The commands of a source file are its struct types, all of them and in order, if no
    function declares types. *)
Theorem C94_commands_of_file_partial : forall file,
  (forall d, In d file -> match d with Func _ => False | _ => True end) ->
  struct_names file = flat_map (fun d => match d with StructType n => [n] | _ => [] end) file.
Proof. exact names_flat. Qed.
Print Assumptions C94_commands_of_file_partial.

(** Nothing is generated for no commands and no events; something always otherwise. *)
Theorem C94_refuses_nothing_partial : forall lower stamp pkg name commands events,
  write_aggregate lower stamp pkg name commands events = None <-> commands = [] /\ events = [].
Proof.
  intros. unfold write_aggregate. destruct commands, events; cbn; split; try (intros [? ?]; discriminate); auto; discriminate.
Qed.
Print Assumptions C94_refuses_nothing_partial.

(** The text of the project's own test for one command (write_aggregate_test.go:40-93). *)
Definition test_text : string := "// Code generated by go generate; DO NOT EDIT.
// This file was generated at
// 2021-01-19 18:24:27.0256008 +0000 UTC
package mypkg

import (
	""github.com/inklabs/rangedb""
	""github.com/inklabs/rangedb/pkg/cqrs""
)

func (a *thing) Load(recordIterator rangedb.RecordIterator) {
	for recordIterator.Next() {
	}
}

func (a *thing) Handle(command cqrs.Command) []rangedb.Event {
	switch c := command.(type) {

	case DoThing:
		a.doThing(c)

	case *DoThing:
		a.doThing(*c)

	}

	defer a.resetPendingEvents()
	return a.pendingEvents
}

func (a *thing) resetPendingEvents() {
	a.pendingEvents = nil
}

func (a *thing) CommandTypes() []string {
	return []string{
		DoThing{}.CommandType(),
	}
}

func (a *thing) raise(events ...rangedb.Event) {
	a.pendingEvents = append(a.pendingEvents, events...)
}
".
Definition test_stamp : string := "2021-01-19 18:24:27.0256008 +0000 UTC".
Example C94_text : write_aggregate (fun u => u) test_stamp "mypkg" "thing" ["DoThing"] [] = Some test_text.
Proof. vm_compute. reflexivity. Qed.
Example C94_runs :
  runs test_text (handle "thing") "DoThing" = Some (tab ++ tab ++ "a.doThing(c)")
  /\ runs test_text (handle "thing") "*DoThing" = Some (tab ++ tab ++ "a.doThing(*c)")
  /\ runs test_text (handle "thing") "DoOther" = None
  /\ Forall exported ["DoThing"; "ThingWasDone"] /\ go_name "thing" /\ lacks newline test_stamp = true.
Proof. repeat split; try reflexivity; try discriminate; repeat constructor. Qed.

(** But the generated code is not always Go.  Every keyword is the method of a command
    that may be named so in Go ("Import", "Select", "Return"): the call and the method
    the user has to write do not compile. *)
Definition upper_first (s : string) : string := match s with EmptyString => "" | String a r => String (ascii_of_N (N_of_ascii a - 32)) r end.
Theorem C94_keywords_refuted : forall k, In k keywords ->
  exists c, exported c /\ forall lower stamp pkg name text,
    lacks newline stamp = true -> lacks newline pkg = true -> go_name name ->
    write_aggregate lower stamp pkg name [c] [] = Some text -> runs text (handle name) c = Some (call k "c").
Proof.
  intros k Hk. assert (A : forallb (fun k => match upper_first k with String a r => between 65 90 (N_of_ascii a) && name_chars r | _ => false end
                                   && String.eqb (method_of (upper_first k)) k) keywords = true) by (vm_compute; reflexivity).
  rewrite forallb_forall in A. specialize (A k Hk). apply andb_prop in A as [A B]. apply String.eqb_eq in B.
  assert (E : exported (upper_first k)). { unfold exported. destruct (upper_first k); [discriminate|]. apply andb_prop in A. exact A. }
  exists (upper_first k). split; [exact E|]. intros lower stamp pkg name text Hs Hp Hn W.
  rewrite <- B at 2. apply (C94_handle_partial lower stamp pkg name [upper_first k] [] text W Hs Hp Hn); [repeat constructor; exact E|constructor|now left].
Qed.
Print Assumptions C94_keywords_refuted.

(** A command named Raise, ResetPendingEvents or (with events) Apply needs a method that
    the generated text itself declares. *)
Theorem C94_reserved_refuted : forall lower stamp pkg name text c,
  c = "Raise" \/ c = "ResetPendingEvents" \/ c = "Apply" ->
  lacks newline stamp = true -> lacks newline pkg = true -> go_name name ->
  write_aggregate lower stamp pkg name [c] ["ThingWasDone"] = Some text ->
  runs text (handle name) c = Some (call (method_of c) "c")
  /\ exists l r, In l (lines_of text) /\ l = "func (a *" ++ name ++ ") " ++ method_of c ++ "(" ++ r.
Proof.
  intros lower stamp pkg name text c Hc Hs Hp Hn W.
  assert (E : exported c) by (destruct Hc as [->|[->| ->]]; split; reflexivity).
  assert (F : Forall exported [c]) by (repeat constructor; exact E).
  assert (F2 : Forall exported ["ThingWasDone"]) by (repeat constructor).
  split; [now apply (C94_handle_partial lower stamp pkg name [c] ["ThingWasDone"] text W Hs Hp Hn F F2); left|].
  apply written in W. subst text. rewrite aggregate_lines_back by assumption.
  assert (I : forall l, In l (apply_lines lower name ["ThingWasDone"]) \/ In l (rest_lines name [c]) ->
    In l (app (aggregate_lines lower stamp pkg name [c] ["ThingWasDone"]) [""])).
  { intros l Hl. apply in_or_app. left. unfold aggregate_lines. apply in_or_app. right. apply in_or_app. right. destruct Hl as [Hl|Hl].
    - apply in_or_app. now left.
    - apply in_or_app. right. apply in_or_app. now right. }
  destruct Hc as [->|[->| ->]].
  - exists ("func (a *" ++ name ++ ") raise(events ...rangedb.Event) {"), "events ...rangedb.Event) {". split; [|reflexivity].
    apply I. right. unfold rest_lines. cbn [List.app map In]. do 10 right. now left.
  - exists ("func (a *" ++ name ++ ") resetPendingEvents() {"), ") {". split; [|reflexivity]. apply I. right. now left.
  - exists ("func (a *" ++ name ++ ") apply(event rangedb.Event) {"), "event rangedb.Event) {". split; [|reflexivity]. apply I. left. now left.
Qed.
Print Assumptions C94_reserved_refuted.

(** A name that begins with a character above ASCII gives a text that is not UTF-8: only
    the first byte of the character is replaced. *)
Theorem C94_not_utf8_refuted : forall lower u t,
  (forall v, scalar v -> scalar (lower v)) -> scalar u -> 128 <= u ->
  let name := utf8 u ++ t in
  In (tab ++ tab ++ "a." ++ lc_first lower name ++ "(c)") (case_lines lower "c" name) /\ ~ is_text (lc_first lower name).
Proof.
  intros lower u t Hl Hu Hb name. split; [right; right; left; reflexivity|]. now apply (lc_not_text lower name u t).
Qed.
Print Assumptions C94_not_utf8_refuted.

(** A struct type inside a function is taken for a command; a type defined as another
    struct type is not. *)
Theorem C94_file_refuted : forall before body after n m,
  In (StructType n) body -> In n (struct_names (app before (Func body :: after)))
  /\ struct_names [StructType n; OtherType m] = [n].
Proof.
  intros before body after n m H. split; [|reflexivity]. unfold struct_names. rewrite flat_map_app. apply in_or_app. right. cbn [flat_map]. apply in_or_app. left.
  cbn [struct_names_of]. clear before after. induction body as [|d body IH]; [destruct H|]. apply in_or_app. destruct H as [->|H]; [left; now left|right; auto].
Qed.
Print Assumptions C94_file_refuted.

(** U+00C9 in a name (a command "État"). *)
Example C94_accent : scalar 201 /\ lc_first (fun u => u + 32) (utf8 201 ++ "tat") = utf8 233 ++ String "137" "tat".
Proof. split; [left; reflexivity|vm_compute; reflexivity]. Qed.

(** * C95: generated commands and event binders *)

Lemma written_commands stamp pkg id type commands text : write_commands stamp pkg id type commands = Some text ->
  text = render (command_lines stamp pkg id type commands).
Proof. unfold write_commands, command_lines. destruct (no_strings commands); congruence. Qed.

(** Each command says the type it was declared with, and the aggregate type asked for,
    if that has no quote, backslash or newline; AggregateID returns the field. *)
Theorem C95_commands_partial : forall stamp pkg id type commands text,
  write_commands stamp pkg id type commands = Some text ->
  lacks newline stamp = true -> lacks newline pkg = true -> go_name id -> Forall exported commands ->
  lacks """" type = true -> lacks "\" type = true -> lacks newline type = true ->
  forall c, In c commands ->
    returned ("func (c " ++ c ++ ") CommandType() string   { return """) (lines_of text) = Some c
    /\ returned ("func (c " ++ c ++ ") AggregateType() string { return """) (lines_of text) = Some type
    /\ In ("func (c " ++ c ++ ") AggregateID() string   { return c." ++ id ++ " }") (lines_of text).
Proof.
  intros stamp pkg id type commands text W Hs Hp Hi Hc H1 H2 H3 c Hin. apply written_commands in W. subst text.
  rewrite commands_back by assumption. split; [|split].
  - now apply (returned_ctype stamp pkg id type commands).
  - fold (type_pre c). rewrite (type_at stamp pkg id type commands Hc c Hin). rewrite literal_plain by (apply plain_lacks; auto). reflexivity.
  - apply in_or_app. left. unfold command_lines. apply in_or_app. right. apply in_flat_map. exists c. split; [exact Hin|]. right. now left.
Qed.
Print Assumptions C95_commands_partial.

(** With a quote or a backslash in it, no command returns the aggregate type asked for:
    the text is not Go or another type comes back. *)
Theorem C95_quoting_refuted : forall stamp pkg id type commands text,
  write_commands stamp pkg id type commands = Some text ->
  lacks newline stamp = true -> lacks newline pkg = true -> go_name id -> Forall exported commands -> lacks newline type = true ->
  lacks """" type = false \/ lacks "\" type = false ->
  forall c, In c commands -> returned ("func (c " ++ c ++ ") AggregateType() string { return """) (lines_of text) <> Some type.
Proof.
  intros stamp pkg id type commands text W Hs Hp Hi Hc H3 Hq c Hin E. apply written_commands in W. subst text.
  rewrite commands_back in E by assumption.
  change ("func (c " ++ c ++ ") AggregateType() string { return """) with (type_pre c) in E.
  rewrite (type_at stamp pkg id type commands Hc c Hin) in E. destruct (go_literal (type ++ """ }")) as [[v r]|] eqn:L; [|discriminate].
  destruct (String.eqb_spec r " }") as [->|]; [|discriminate]. injection E as ->. apply literal_only_plain, plain_lacks in L as (A & B & _).
  destruct Hq; congruence.
Qed.
Print Assumptions C95_quoting_refuted.

Example C95_example :
  exists text, write_commands test_stamp "mypkg" "ID" "thing" ["DoThing"; "DoAnother"] = Some text
  /\ returned "func (c DoAnother) AggregateType() string { return """ (lines_of text) = Some "thing"
  /\ returned "func (c DoAnother) CommandType() string   { return """ (lines_of text) = Some "DoAnother".
Proof. eexists. split; [reflexivity|]. vm_compute. split; reflexivity. Qed.
Example C95_tab : exists text, write_commands test_stamp "mypkg" "ID" "a\thing" ["DoThing"] = Some text
  /\ returned "func (c DoThing) AggregateType() string { return """ (lines_of text) = Some ("a" ++ tab ++ "hing").
Proof. eexists. split; [reflexivity|]. vm_compute. reflexivity. Qed.

(** The event binder binds every event, in order, and nothing else. *)
Theorem C95_binder_partial : forall stamp pkg events,
  lacks newline stamp = true -> lacks newline pkg = true -> Forall exported events ->
  body_of "func BindEvents(binder rangedb.EventBinder) {" (lines_of (binder_text stamp pkg events))
  = app [tab ++ "binder.Bind("] (app (map (fun e => tab ++ tab ++ "&" ++ e ++ "{},") events) [tab ++ ")"]).
Proof.
  intros stamp pkg events Hs Hp He. unfold binder_text. rewrite lines_back.
  - rewrite <- List.app_assoc.
    match goal with |- body_of ?h (app [?a; ?b; ?c; ?d; ?e; ?f; ?g; ?h0; ?i] ?r) = _ =>
      change (app [a; b; c; d; e; f; g; h0; i] r) with (app [a; b; c; d; e; f; g] (h :: app [i] r)) end.
    rewrite body_skip by (repeat (apply Forall_cons || apply Forall_nil); discriminate).
    rewrite body_here. rewrite <- List.app_assoc. cbn [List.app].
    match goal with |- until_brace (?h :: app ?m [?x; ?y; ?z]) = _ => change (h :: app m [x; y; z]) with (app [h] (app m (app [x] (y :: [z])))) end.
    rewrite !List.app_assoc. rewrite until_here; [now rewrite <- !List.app_assoc|]. apply Forall_impl with (P := inner); [apply inner_brace|].
    repeat (apply Forall_app; split); try (apply Forall_cons; [right; eexists; reflexivity|apply Forall_nil]).
    apply Forall_map, Forall_forall. intros e _. right. eexists. reflexivity.
  - apply Forall_app. split; [line; rewrite ?Hs, ?Hp; reflexivity|]. apply Forall_app. split; [|line].
    apply Forall_map, Forall_forall. intros e Hi. rewrite Forall_forall in He. rewrite !lacks_app, (exported_line e (He e Hi)). reflexivity.
Qed.
Print Assumptions C95_binder_partial.

Example C95_bound : body_of "func BindEvents(binder rangedb.EventBinder) {" (lines_of (binder_text test_stamp "mypkg" ["ThingWasDone"; "ThingWasUndone"]))
  = [tab ++ "binder.Bind("; tab ++ tab ++ "&ThingWasDone{},"; tab ++ tab ++ "&ThingWasUndone{},"; tab ++ ")"].
Proof. vm_compute. reflexivity. Qed.
