(** Events with personal data: what the event generator finds in a struct declaration,
    the methods it writes, and the encrypting store that calls them. *)
From Coq Require Import PeanoNat ZArith.
From Verif Require Import Base Text DecText JsonText Encodings Crypto Prog KeyStores.
Open Scope string_scope.

(** * The generator's reading of a declaration *)

(** A field of a struct: [a, b string `encrypt:"..." serialized:"..."`].  [tags] is
    what structtag.Parse finds, [None] if there is no tag or it cannot be parsed
    (event_parser.go:56-64).  Simplification: the source text and go/parser are left
    out; so are struct tags written in double quotes, which event_parser.go:61 cannot
    parse. *)
Record field := mk_field { names : list string; typ : string; tags : option (list (string * string)) }.
(** structtag [Tags.Get]; a missing key is an error, which is passed over. *)
Definition tag (key : string) (f : field) : option string :=
  match tags f with Some l => entry key l | None => None end.
(** structtag: a tag's name ends at the first comma. *)
Fixpoint tag_name (s : string) : string :=
  match s with
  | EmptyString => ""
  | String a r => if Ascii.eqb a "," then "" else String a (tag_name r)
  end.

(** event_parser.go:14-18 [PersonalData].  The map of serialized fields, from target to
    source, is kept in the order of its keys, as text/template ranges over it. *)
Record personal := mk_personal { subject_field : string; texts : list string; serialized : list (string * string) }.
Fixpoint put (k v : string) (l : list (string * string)) : list (string * string) :=
  match l with
  | [] => [(k, v)]
  | (k', v') :: r =>
      match String.compare k k' with
      | Eq => (k, v) :: r
      | Lt => (k, v) :: (k', v') :: r
      | Gt => (k', v') :: put k v r
      end
  end.
(** event_parser.go:55-87: only the first name of a field is looked at. *)
Definition read_field (p : personal) (f : field) : personal :=
  match names f with
  | [] => p
  | name :: _ =>
      match tag "encrypt" f with
      | Some v =>
          if String.eqb v "subject-id" then mk_personal name (texts p) (serialized p)
          else if String.eqb v "personal-data" then
            match tag "serialized" f with
            | None => mk_personal (subject_field p) (texts p ++ [name])%list (serialized p)
            | Some t => mk_personal (subject_field p) (texts p) (put (tag_name t) name (serialized p))
            end
          else p
      | None => p
      end
  end.
Definition read_fields (l : list field) : personal := fold_left read_field l (mk_personal "" [] []).
(** event_parser.go:89-100: a target of serialized data must be a string. *)
Definition targets_are_strings (l : list field) : bool :=
  let p := read_fields l in
  forallb (fun f => match names f with
                    | [] => true
                    | name :: _ => match entry name (serialized p) with Some _ => String.eqb (typ f) "string" | None => true end
                    end) l.
(** event_parser.go:102-117: without a subject there is no personal data. *)
Inductive parsed := Refused | Plain | Personal (p : personal).
Definition parse_struct (l : list field) : parsed :=
  if negb (targets_are_strings l) then Refused
  else if String.eqb (subject_field (read_fields l)) "" then Plain else Personal (read_fields l).

(** * The generated methods *)

(** The fields of an event, by name. *)
Inductive value := VText (s : string) | VInt (z : Z).
Definition row := list (string * value).
Definition text_of (e : row) (f : string) : string := match entry f e with Some (VText s) => s | _ => "" end.
Definition int_of (e : row) (f : string) : Z := match entry f e with Some (VInt z) => z | _ => 0%Z end.

(** strconv.Itoa, and strconv.Atoi: an optional sign, digits, in the range of int. *)
Definition itoa (z : Z) : string := print_int z.
Definition min_int : Z := (- 9223372036854775808)%Z.
Definition max_int : Z := 9223372036854775807%Z.
Definition atoi (s : string) : option Z :=
  let '(neg, r) := match s with
                   | String "-" r => (true, r)
                   | String "+" r => (false, r)
                   | _ => (false, s)
                   end in
  match r with
  | EmptyString => None
  | _ => let '(v, rest) := digits 0 r in
         match rest with
         | EmptyString => let z := if neg then (- Z.of_N v)%Z else Z.of_N v in
                          if ((min_int <=? z) && (z <=? max_int))%Z then Some z else None
         | _ => None
         end
  end.

(** crypto.go:10-13 [Encryptor], as the generated methods see it: a subject and a
    text; [Deleted] is ErrKeyWasDeleted, [Fails] any other error, [Crashes] a panic. *)
Inductive ask := Seal (subject text : string) | Open (subject text : string).
Inductive reply := Good (s : string) | Deleted | Fails | Crashes.
(** How a method ends, beside the event as it leaves it. *)
Inductive ending := Ended | EndedDeleted | EndedFailed | EndedPanic.

(** event_writer.go:148-156 [redactPersonalData]. *)
Definition redact (p : personal) (e : row) : row :=
  fold_left (fun e t => enter (snd t) (VInt 0) e) (serialized p) (fold_left (fun e f => enter f (VText "") e) (texts p) e).

(** The calls of Encrypt and Decrypt one after the other (event_writer.go:85-103 and
    116-137): a text, and whether the answer is turned into a number; then [done]. *)
Fixpoint each (p : personal) (e : row) (q : string -> ask) (items : list (string * bool)) (got : list value)
    (done : list value -> row) : prog ask reply (ending * row) :=
  match items with
  | [] => Ret (Ended, done (rev got))
  | (t, number) :: rest =>
      Ask (q t) (fun a =>
        match a with
        | Good s =>
            if number then
              match atoi s with
              | Some z => each p e q rest (VInt z :: got) done
              | None => Ret (EndedFailed, e)
              end
            else each p e q rest (VText s :: got) done
        | Deleted => Ret (EndedDeleted, redact p e)
        | Fails => Ret (EndedFailed, e)
        | Crashes => Ret (EndedPanic, e)
        end)
  end.
Definition assign (names : list string) (vs : list value) (e : row) : row :=
  fold_left (fun e x => enter (fst x) (snd x) e) (combine names vs) e.

(** event_writer.go:83-115. *)
Definition gen_encrypt (p : personal) (e : row) : prog ask reply (ending * row) :=
  let sub := text_of e (subject_field p) in
  let items := (map (fun f => (text_of e f, false)) (texts p) ++ map (fun t => (itoa (int_of e (snd t)), false)) (serialized p))%list in
  each p e (Seal sub) items [] (fun vs =>
    let e1 := assign (texts p) (firstn (length (texts p)) vs) e in
    let e2 := fold_left (fun e t => enter (snd t) (VInt 0) e) (serialized p) e1 in
    assign (map fst (serialized p)) (skipn (length (texts p)) vs) e2).
(** event_writer.go:114-147. *)
Definition gen_decrypt (p : personal) (e : row) : prog ask reply (ending * row) :=
  let sub := text_of e (subject_field p) in
  let items := (map (fun f => (text_of e f, false)) (texts p) ++ map (fun t => (text_of e (fst t), true)) (serialized p))%list in
  each p e (Open sub) items [] (fun vs =>
    let e1 := assign (texts p) (firstn (length (texts p)) vs) e in
    let e2 := assign (map snd (serialized p)) (skipn (length (texts p)) vs) e1 in
    fold_left (fun e t => enter (fst t) (VText "") e) (serialized p) e2).

(** * An encryptor: the engine on a key store in memory *)

Definition to_reply (r : eout) : reply :=
  match r with
  | Answer (Text s) => Good s
  | Answer Panics => Crashes
  | KeyError WasDeleted => Deleted
  | _ => Fails
  end.
(** event_encryptor.go:56-81; [f]: the random bytes drawn, see [KeyStores.Encrypt]. *)
Definition mem_encryptor (enc : string -> option string -> string -> answer) (dec : string -> string -> answer)
    (f : option string * option string) (m : mem) (q : ask) : mem * reply :=
  let o := match q with Seal s t => Encrypt s t (fst f) (snd f) | Open s t => Decrypt s t end in
  let (m', r) := finish mem_server [] Fine m (engine enc dec o) in (m', to_reply r).

(** * The encrypting store *)

(** An event as the caller has it: whether the caller passes a pointer (the methods
    have pointer receivers, so an event passed by value is not a SelfEncryptor,
    event_encryptor.go:25-31), the personal data of its type, and its fields. *)
Record event := mk_event { pointer : bool; kind : option personal; body : row }.

Section Store.
Context {S F : Type}.
Variable srv : F -> S -> ask -> S * reply.
Variable dflt : F.

(** encrypted_store.go:43-63: Save and OptimisticSave encrypt the caller's events in
    place, one after the other, then save them.  [fs]: outside influences on the
    encryptor. *)
Definition encrypt_event (fs : list F) (s : S) (v : event) : S * (ending * event) :=
  match pointer v, kind v with
  | true, Some p => let (s', r) := finish srv fs dflt s (gen_encrypt p (body v)) in (s', (fst r, mk_event true (Some p) (snd r)))
  | _, _ => (s, (Ended, v))
  end.

(** The caller's events by number, the encryptor, and what the parent store holds: of
    each record the type's personal data and the fields.  Simplification: the parent is
    a list to which a save appends all or nothing; numbering, streams and concurrency
    are what the models of the stores are about. *)
Record scene := mk_scene { keys : S; events : list (nat * event); held : list (option personal * row) }.
Fixpoint event_at (n : nat) (l : list (nat * event)) : option event :=
  match l with [] => None | (m, v) :: r => if Nat.eqb m n then Some v else event_at n r end.
Definition set_event (n : nat) (v : event) (l : list (nat * event)) : list (nat * event) := (n, v) :: l.

Fixpoint encrypt_all (sc : scene) (evs : list (nat * list F)) : scene * ending :=
  match evs with
  | [] => (sc, Ended)
  | (n, fs) :: rest =>
      match event_at n (events sc) with
      | None => encrypt_all sc rest
      | Some v =>
          let '(s', (r, v')) := encrypt_event fs (keys sc) v in
          let sc' := mk_scene s' (set_event n v' (events sc)) (held sc) in
          match r with Ended => encrypt_all sc' rest | _ => (sc', r) end
      end
  end.
(** What a save returns: nothing, the encryptor's error (or panic), the parent's error. *)
Inductive saved := SavedAll | NotEncrypted (r : ending) | ParentFailed.
Definition rows_of (sc : scene) (evs : list (nat * list F)) : list (option personal * row) :=
  flat_map (fun x => match event_at (fst x) (events sc) with Some v => [(kind v, body v)] | None => [] end) evs.
Definition save (sc : scene) (x : list (nat * list F) * fault) : scene * saved :=
  let (evs, parent) := x in
  let (sc', r) := encrypt_all sc evs in
  match r with
  | Ended =>
      let all := mk_scene (keys sc') (events sc') (held sc' ++ rows_of sc' evs) in
      match parent with Fine => (all, SavedAll) | Lost => (sc', ParentFailed) | Unanswered => (all, ParentFailed) end
  | _ => (sc', NotEncrypted r)
  end.
Fixpoint saves (sc : scene) (l : list (list (nat * list F) * fault)) : scene * list saved :=
  match l with
  | [] => (sc, [])
  | x :: rest => let (sc1, r) := save sc x in let (sc2, rs) := saves sc1 rest in (sc2, r :: rs)
  end.

(** decrypting_record_iterator.go:40-55 [Record] on a record whose data the serializer
    has just made (a pointer, if the type is bound, which is assumed): the event, nil
    after an error. *)
Definition decrypt_row (s : S) (x : option personal * row) : S * (ending * row) :=
  match fst x with
  | Some p => finish srv [] dflt s (gen_decrypt p (snd x))
  | None => (s, (Ended, snd x))
  end.
(** The loop [for it.Next() { it.Record() }]: what Record returned each time, and what
    Err returns. *)
Fixpoint read_all (s : S) (l : list (option personal * row)) : list (option row) * ending :=
  match l with
  | [] => ([], Ended)
  | x :: rest =>
      let '(s', (r, e)) := decrypt_row s x in
      match r with
      | Ended => let (got, err) := read_all s' rest in (Some e :: got, err)
      | _ => ([None], r)
      end
  end.
(** Record called twice on a record: the second call decrypts what the first left. *)
Definition record_twice (s : S) (x : option personal * row) : option row * option row :=
  let '(s1, (r1, e1)) := decrypt_row s x in
  let '(_, (r2, e2)) := decrypt_row s1 (fst x, e1) in
  (match r1 with Ended => Some e1 | _ => None end, match r2 with Ended => Some e2 | _ => None end).
(** decrypting_record_subscriber.go:21-27 [Accept]: errors are ignored. *)
Fixpoint accept_all (s : S) (l : list (option personal * row)) : list row :=
  match l with
  | [] => []
  | x :: rest => let '(s', (_, e)) := decrypt_row s x in e :: accept_all s' rest
  end.
End Store.
Arguments keys {S}. Arguments events {S}. Arguments held {S}. Arguments mk_scene {S}.
