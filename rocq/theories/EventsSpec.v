(** Independent vocabulary for statements about events with personal data. *)
From Coq Require Import PeanoNat ZArith.
From Verif Require Import Base Crypto Prog KeyStores Events.
Open Scope string_scope.

(** Two events agree in every field. *)
Definition same (e1 e2 : row) : Prop := forall f, entry f e1 = entry f e2.
(** ... except perhaps in the fields of a list. *)
Definition same_but (l : list string) (e1 e2 : row) : Prop := forall f, ~ In f l -> entry f e1 = entry f e2.
Definition sources (p : personal) : list string := map snd (serialized p).
Definition targets (p : personal) : list string := map fst (serialized p).

(** The fields the methods of a type work on are different fields, ... *)
Definition apart (p : personal) : Prop := NoDup (subject_field p :: texts p ++ sources p ++ targets p).
(** ... and an event of the type has texts in text fields and ints in int fields. *)
Definition typed (p : personal) (e : row) : Prop :=
  (forall f, In f (texts p) -> exists s, entry f e = Some (VText s))
  /\ (forall f, In f (sources p) -> exists z, entry f e = Some (VInt z) /\ (-9223372036854775808 <= z <= 9223372036854775807)%Z).
(** The targets of serialized fields are empty while the event is in the clear. *)
Definition clear_targets (p : personal) (e : row) : Prop := forall f, In f (targets p) -> entry f e = Some (VText "").

(** What an encryptor guarantees: what it sealed for a subject it opens again, also
    after further calls.  [opens s x c t]: in state [s] the text [c] opens to [t] for
    subject [x]. *)
Record trusty {S F : Type} (srv : F -> S -> ask -> S * reply) (opens : S -> string -> string -> string -> Prop) : Prop := {
  seals : forall f s x t s' c, srv f s (Seal x t) = (s', Good c) -> opens s' x c t;
  opened : forall f s x c t, opens s x c t -> snd (srv f s (Open x c)) = Good t;
  stays : forall f s q s' r x c t, opens s x c t -> srv f s q = (s', r) -> opens s' x c t
}.
(** In state [s] the subject's key is deleted, for good. *)
Definition subject_of (q : ask) : string := match q with Seal x _ => x | Open x _ => x end.
Record deletes {S F : Type} (srv : F -> S -> ask -> S * reply) (gone : S -> string -> Prop) : Prop := {
  refuses : forall f s q, gone s (subject_of q) -> snd (srv f s q) = Deleted;
  stays_gone : forall f s q x, gone s x -> gone (fst (srv f s q)) x
}.
(** [e'] is [e] encrypted: its texts and, in the targets, its numbers became cipher
    texts which open to them for the subject of [e]; its numbers became 0. *)
Definition sealed {S : Type} (opens : S -> string -> string -> string -> Prop) (s : S) (p : personal) (e e' : row) : Prop :=
  let x := text_of e (subject_field p) in
  same_but (texts p ++ sources p ++ targets p) e e'
  /\ (forall f, In f (texts p) -> exists c, entry f e' = Some (VText c) /\ opens s x c (text_of e f))
  /\ (forall t, In t (serialized p) -> exists c, entry (fst t) e' = Some (VText c) /\ opens s x c (itoa (int_of e (snd t))))
  /\ (forall f, In f (sources p) -> entry f e' = Some (VInt 0)).
(** [e'] is [e] without its personal data. *)
Definition blanked (p : personal) (e e' : row) : Prop :=
  same_but (texts p ++ sources p) e e'
  /\ (forall f, In f (texts p) -> entry f e' = Some (VText ""))
  /\ (forall f, In f (sources p) -> entry f e' = Some (VInt 0)).
(** The encryptor's state after some calls. *)
Definition after {S F : Type} (srv : F -> S -> ask -> S * reply) (s : S) (qs : list (F * ask)) : S :=
  fold_left (fun s x => fst (srv (fst x) s (snd x))) qs s.

(** The engine on a key store in memory as an encryptor: [c] is a cipher text of [t]
    under the subject's key, ... *)
Definition mem_opens (enc : string -> option string -> string -> answer) (m : mem) (x c t : string) : Prop :=
  exists k n, entry x (keys_of m) = Some k /\ k <> "" /\ enc k n t = Text c.
(** ... and the key was deleted. *)
Definition mem_gone (m : mem) (x : string) : Prop := entry x (keys_of m) = Some "".

(** Did the save take effect? *)
Definition stored (f : fault) (r : saved) : bool :=
  match r, f with SavedAll, _ => true | ParentFailed, Unanswered => true | _, _ => false end.
(** The events that were saved, as they were at the beginning, in order. *)
Definition expected {F} (start : list (nat * event)) (l : list (list (nat * list F) * fault)) (rs : list saved) : list row :=
  flat_map (fun x => let '((evs, f), r) := x in
    if stored f r then flat_map (fun n => match event_at (fst n) start with Some v => [body v] | None => [] end) evs else []) (combine l rs).
(** No event is passed to a save twice. *)
Definition each_once {F} (l : list (list (nat * list F) * fault)) : Prop := NoDup (flat_map (fun x => map fst (fst x)) l).

(** Every name declared under a tag that says so is personal data. *)
Definition tagged (l : list field) (name : string) : Prop :=
  exists f, In f l /\ In name (names f) /\ tag "encrypt" f = Some "personal-data".
Definition covered (p : personal) (name : string) : Prop := In name (texts p) \/ In name (sources p).
(** An event as the encrypting store wants it: passed by reference, its fields of their
    types and its targets empty; events without personal data may be anything. *)
Definition proper (v : event) : Prop :=
  match kind v with
  | Some p => pointer v = true /\ apart p /\ typed p (body v) /\ clear_targets p (body v)
  | None => True
  end.
(** [h] is what the parent store holds of an event that was [e]. *)
Definition held_as {S : Type} (opens : S -> string -> string -> string -> Prop) (s : S) (h : option personal * row) (e : row) : Prop :=
  match fst h with
  | Some p => apart p /\ typed p e /\ clear_targets p e /\ sealed opens s p e (snd h)
  | None => same e (snd h)
  end.
(** [h] has personal data (per [p]) of a subject whose key is deleted. *)
Definition lost {S : Type} (gone : S -> string -> Prop) (s : S) (h : option personal * row) (p : personal) : Prop :=
  fst h = Some p /\ apart p /\ (texts p ++ sources p <> [])%list /\ gone s (text_of (snd h) (subject_field p)).
(** The key store after calls of the engine and deletions of keys, one by one. *)
Definition engine_after (enc : string -> option string -> string -> answer) (dec : string -> string -> answer) (m : mem) (l : list eop) : mem :=
  fold_left (fun m o => fst (finish mem_server [] Fine m (engine enc dec o))) l m.

(** A field, by its first name, is the target of serialized personal data of another,
    and is not a string. *)
Definition bad_target (l : list field) : Prop :=
  exists f g t r r' s v, In f l /\ In g l /\ names f = t :: r /\ typ f <> "string"
    /\ names g = s :: r' /\ tag "encrypt" g = Some "personal-data" /\ tag "serialized" g = Some v /\ t = tag_name v.
