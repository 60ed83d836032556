(** A notebook of events, and the bytes an HTTP server in front of it answers with: the
    specification C102 measures the server against.  Of the model it uses the vocabulary
    of requests and wishes (HttpSpec.v, HttpStorySpec.v) and the grammar of JSON
    (JsonGrammar.v, [series] of JsonRecordSpec.v). *)
From Coq Require Import ZArith.
From Verif Require Import Base Text PathSpec DecText NumberSpec Json JsonSpec JsonTextSpec JsonGrammar JsonRecordSpec Http HttpBytes HttpSpec HttpStorySpec.
Open Scope string_scope.
Open Scope list_scope.
Open Scope N_scope.

(** * What a body says *)

(** The body begins with a JSON text of [j]. *)
Definition begins_with (body : string) (j : json) : Prop :=
  exists w t rest, body = (w ++ t ++ rest)%string /\ blanks w /\ text_of 10000 j t /\ (forall n, j = JNum n -> ends_number rest).
(** It does not begin with any JSON text. *)
Definition no_text (body : string) : Prop :=
  forall w t rest j, body = (w ++ t ++ rest)%string -> blanks w -> ~ text_of 10000 j t.
Definition carries (body : string) (b : option json) : Prop :=
  match b with Some j => begins_with body j | None => no_text body end.

(** The request wants [w].  Only the bodies of posts matter.  Names are UTF-8 texts, and
    events have data. *)
Definition wants (q : wire) (w : wish) : Prop :=
  (exists b, match w with Post _ _ _ | Nonsense => carries (w_body q) b | _ => True end /\ says (with_body q b) w)
  /\ match w with Post name _ es => is_text name /\ Forall (fun e => ce_data e <> JNull) es | _ => True end.

(** The server's IDs are texts and its clock shows uint64 numbers. *)
Definition sane_stamps (q : wire) : Prop := forall i, is_text (fst (w_stamp q i)) /\ snd (w_stamp q i) < 2 ^ 64.

(** The format the path asks for. *)
Definition in_format (q : wire) (e : string) : Prop := exists p, spelled (w_path q) (p ++ "." ++ e)%string.

(** * The notebook *)

(** What the client said, the numbers the event got, and the ID and the time the server
    gave it. *)
Record note := mk_note { n_stream : string; n_ssn : N; n_gsn : N; n_id : string; n_time : N; n_event : client_event }.
Record notebook := mk_notebook { notes : list note; total : N }.
Definition empty_notebook : notebook := mk_notebook [] 0.

Definition notes_of (name : string) (b : notebook) : list note := filter (fun n => String.eqb (n_stream n) name) (notes b).
Definition how_many (name : string) (b : notebook) : N := N.of_nat (length (notes_of name b)).

(** The notes on new events: the [k]th of the stream and the [g]th of all came before.
    [stamp i] are the ID and the time of the [i]th event of the post. *)
Fixpoint numbered (name : string) (stamp : nat -> string * N) (i : nat) (k g : N) (es : list client_event) : list note :=
  match es with
  | [] => []
  | e :: rest => mk_note name (k + 1) (g + 1) (fst (stamp i)) (snd (stamp i)) e :: numbered name stamp (S i) (k + 1) (g + 1) rest
  end.

(** * The bytes *)

Section Back.
(** How a number that was posted is written. *)
Variable back : num -> num.

(** A value that was posted, and the value given back: the same, its numbers written the
    server's way, the members of its objects in order of their names, and of those with
    one name the last. *)
Inductive echoes : json -> json -> Prop :=
| echo_null : echoes JNull JNull
| echo_bool b : echoes (JBool b) (JBool b)
| echo_num n : echoes (JNum n) (JNum (back n))
| echo_str s : echoes (JStr s) (JStr s)
| echo_arr l l' : length l = length l' ->
    (forall i x y, nth_error l i = Some x -> nth_error l' i = Some y -> echoes x y) -> echoes (JArr l) (JArr l')
| echo_obj ms l : keys_sorted l -> (forall k, last_member k ms = None <-> last_member k l = None) ->
    (forall k x y, last_member k ms = Some x -> last_member k l = Some y -> echoes x y) -> echoes (JObj ms) (JObj l).

(** The JSON object that shows a note. *)
Definition shows (o : json) (n : note) : Prop :=
  exists data meta,
    o = JObj [("streamName", JStr (n_stream n)); ("aggregateType", JStr (ce_atype (n_event n)));
              ("aggregateID", JStr (ce_aid (n_event n))); ("globalSequenceNumber", JNum (Int (Z.of_N (n_gsn n))));
              ("streamSequenceNumber", JNum (Int (Z.of_N (n_ssn n)))); ("insertTimestamp", JNum (Int (Z.of_N (n_time n))));
              ("eventID", JStr (n_id n)); ("eventType", JStr (ce_etype (n_event n))); ("data", data); ("metadata", meta)]
    /\ echoes (ce_data (n_event n)) data /\ echoes (ce_meta (n_event n)) meta.

(** The body shows these notes and nothing else: a JSON array of their objects, or the
    objects one behind the other. *)
Definition page (q : wire) (ns : list note) (body : string) : Prop :=
  (in_format q "json" -> exists os, text_of 10000 (JArr os) body /\ Forall2 shows os ns)
  /\ (in_format q "ndjson" -> exists os, series os body /\ Forall2 shows os ns).

(** How a request is answered, and what is in the notebook then. *)
Inductive answered (b : notebook) (q : wire) : wish -> reply_bytes -> notebook -> Prop :=
| a_posted name ex es body :
    ex = None \/ ex = Some (how_many name b) ->
    tells body (":" ++ dec (how_many name b + N.of_nat (length es)) ++ "}") ->
    answered b q (Post name ex es) (Bytes 201 body)
      (mk_notebook (notes b ++ numbered name (w_stamp q) 0 (how_many name b) (total b) es) (total b + N.of_nat (length es)))
| a_not_posted name x es body :
    x <> how_many name b ->
    tells body ("unexpected sequence number: " ++ dec x ++ ", actual: " ++ dec (how_many name b)) ->
    answered b q (Post name (Some x) es) (Bytes 409 body) b
| a_deleted name n body :
    n = how_many name b -> tells body (":" ++ dec n ++ "}") ->
    answered b q (Delete name n) (Bytes 200 body)
      (mk_notebook (filter (fun r => negb (String.eqb (n_stream r) name)) (notes b)) (total b))
| a_not_deleted name n body :
    n <> how_many name b -> tells body ("unexpected sequence number: " ++ dec n ++ ", actual: " ++ dec (how_many name b)) ->
    answered b q (Delete name n) (Bytes 409 body) b
| a_nothing_to_delete name n body :
    notes_of name b = [] -> answered b q (Delete name n) (Bytes 404 body) b
| a_stream name body : page q (notes_of name b) body -> answered b q (GetStream name) (Bytes 200 body) b
| a_all body : page q (notes b) body -> answered b q GetAll (Bytes 200 body) b
| a_types ts body :
    page q (filter (fun n => if in_dec string_dec (ce_atype (n_event n)) ts then true else false) (notes b)) body ->
    answered b q (GetTypes ts) (Bytes 200 body) b
| a_refused body : answered b q Nonsense (Bytes 400 body) b.

(** One request after the other. *)
Inductive tale : notebook -> list wire -> list wish -> list reply_bytes -> notebook -> Prop :=
| tale_end b : tale b [] [] [] b
| tale_on b q w a b1 qs ws l b2 : answered b q w a b1 -> tale b1 qs ws l b2 -> tale b (q :: qs) (w :: ws) (a :: l) b2.
End Back.

(** A server answering one request after the other. *)
Fixpoint answers {St : Type} (step : St -> wire -> St * reply_bytes) (s : St) (qs : list wire) : list reply_bytes :=
  match qs with
  | [] => []
  | q :: rest => let '(s', a) := step s q in a :: answers step s' rest
  end.

(** No delete was refused. *)
Fixpoint none_refused (ws : list wish) (l : list reply_bytes) : Prop :=
  match ws, l with
  | Delete _ _ :: ws', a :: l' => (exists body, a = Bytes 200 body) /\ none_refused ws' l'
  | _ :: ws', _ :: l' => none_refused ws' l'
  | _, _ => True
  end.
