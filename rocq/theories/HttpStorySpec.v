(** A list of events, and how an HTTP server in front of it answers: the specification
    C98 measures the server against.  Nothing of the model of the server is used, only
    its vocabulary of requests ([HttpSpec]), answers and records. *)
From Verif Require Import Base Text CoreSpec PathSpec NumberSpec DecText Json Http HttpSpec LevelDBSpec.
Open Scope string_scope.
Open Scope list_scope.
Open Scope N_scope.

(** What the client wants. *)
Inductive wish :=
| Post (name : string) (expected : option N) (es : list client_event)
| Delete (name : string) (expected : N)
| GetStream (name : string)
| GetAll
| GetTypes (types : list string)
| Nonsense.   (* a request that makes no sense *)

Definition expects (header : string) (x : option N) : Prop :=
  match x with None => header = "" | Some n => numeral header n end.

Definition no_sense (q : request) : Prop :=
  bad_escape (q_path q)
  \/ (exists name, addressable name /\ addressed q "save-events" name /\
       (q_ctype q <> "application/json" \/ q_body q = None
        \/ (exists j, q_body q = Some j /\ (forall l, j <> JArr l) /\ j <> JNull)
        \/ (q_expected q <> "" /\ forall n, ~ numeral (q_expected q) n)))
  \/ (exists name, addressable name /\ addressed q "delete-stream" name /\
       q_expected q <> "" /\ forall n, ~ numeral (q_expected q) n).

(** The request says so. *)
Definition says (q : request) (w : wish) : Prop :=
  match w with
  | Post name ex es =>
      addressable name /\ addressed q "save-events" name /\ q_ctype q = "application/json" /\ q_cancel q = None
      /\ describes_all (q_body q) es /\ es <> [] /\ client_aggregate es /\ expects (q_expected q) ex
  | Delete name n =>
      addressable name /\ addressed q "delete-stream" name /\ q_cancel q = None
      /\ (expects (q_expected q) (Some n) \/ q_expected q = "" /\ n = 0)
  | GetStream name =>
      name <> "" /\ lacks "/" name = true /\ exists e, ext_of e /\ addressed q "events-by-stream" (name ++ "." ++ e)%string
  | GetAll => exists e, ext_of e /\ spelled (q_path q) ("/all-events." ++ e)%string
  | GetTypes ts =>
      NoDup ts /\ ts <> [] /\ Forall only_letters ts /\ join "," ts <> ""
      /\ exists e, ext_of e /\ addressed q "events-by-aggregate-type" (join "," ts ++ "." ++ e)%string
  | Nonsense => no_sense q
  end.

(** The events there are, oldest first, and the largest global number given so far. *)
Record book := mk_book { events : list record; given : N }.
Definition empty_book : book := mk_book [] 0.

Definition stream_of (name : string) (b : book) : list record := filter (fun r => String.eqb (r_stream r) name) (events b).
Definition size (name : string) (b : book) : N := N.of_nat (length (stream_of name b)).

(** [count n k]: n+1, n+2, ..., n+k. *)
Definition count (n : N) (k : nat) : list N := map (fun i => n + N.of_nat i) (seq 1 k).

(** A body holding [text]. *)
Definition tells (body text : string) : Prop := exists pre post, body = (pre ++ text ++ post)%string.

(** How a wish is answered, and what is in the book then.  [show] is how a value is
    stored. *)
Inductive served (show : json -> string) (b : book) : wish -> answer -> book -> Prop :=
| posted name ex es new g body :
    ex = None \/ ex = Some (size name b) ->
    map said new = map (described_as show name) es ->
    map r_ssn new = count (size name b) (length es) ->
    map r_gsn new = count (given b) (length es) ->
    g = given b + N.of_nat (length es) ->
    tells body (":" ++ dec (size name b + N.of_nat (length es)) ++ "}") ->
    served show b (Post name ex es) (Answer 201 body) (mk_book (events b ++ new) g)
| not_posted name x es body :
    x <> size name b ->
    tells body ("unexpected sequence number: " ++ dec x ++ ", actual: " ++ dec (size name b)) ->
    served show b (Post name (Some x) es) (Answer 409 body) b
| deleted name n body :
    n = size name b -> tells body (":" ++ dec n ++ "}") ->
    served show b (Delete name n) (Answer 200 body)
      (mk_book (filter (fun r => negb (String.eqb (r_stream r) name)) (events b)) (given b))
| not_deleted name n body :
    n <> size name b -> tells body ("unexpected sequence number: " ++ dec n ++ ", actual: " ++ dec (size name b)) ->
    served show b (Delete name n) (Answer 409 body) b
| nothing_to_delete name n body :
    stream_of name b = [] -> served show b (Delete name n) (Answer 404 body) b
| got_stream name : served show b (GetStream name) (Records (stream_of name b)) b
| got_all : served show b GetAll (Records (events b)) b
| got_types ts : served show b (GetTypes ts) (Records (filter (fun r => if in_dec string_dec (r_atype r) ts then true else false) (events b))) b
| refused body : served show b Nonsense (Answer 400 body) b.

(** One request after the other. *)
Inductive story (show : json -> string) : book -> list wish -> list answer -> book -> Prop :=
| ended b : story show b [] [] b
| went_on b w a b1 ws l b2 : served show b w a b1 -> story show b1 ws l b2 -> story show b (w :: ws) (a :: l) b2.

(** A server answering requests one after the other. *)
Fixpoint replies {St : Type} (step : St -> request -> St * answer) (s : St) (qs : list request) : list answer :=
  match qs with
  | [] => []
  | q :: rest => let '(s', a) := step s q in a :: replies step s' rest
  end.

(** For a store that keeps names in byte keys: names and types without "$!". *)
Definition tidy (w : wish) : Prop :=
  match w with
  | Post name _ es => clean name /\ Forall (fun e => clean (ce_atype e)) es
  | Delete name _ | GetStream name => clean name
  | GetTypes ts => Forall clean ts
  | GetAll | Nonsense => True
  end.
Definition new_events (w : wish) : N := match w with Post _ _ es => N.of_nat (length es) | _ => 0 end.
Fixpoint all_new (ws : list wish) : N := match ws with [] => 0 | w :: rest => new_events w + all_new rest end.

(** No delete was refused. *)
Fixpoint all_deleted (ws : list wish) (l : list answer) : Prop :=
  match ws, l with
  | Delete _ _ :: ws', a :: l' => (exists body, a = Answer 200 body) /\ all_deleted ws' l'
  | _ :: ws', _ :: l' => all_deleted ws' l'
  | _, _ => True
  end.
