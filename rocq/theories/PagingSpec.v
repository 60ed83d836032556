(** Independent vocabulary for the statements about paging. *)
From Coq Require Import Sorted.
From Verif Require Import Base DecText Text PathSpec Http HttpSpec Paging.
Open Scope string_scope.
Open Scope list_scope.
Open Scope N_scope.

(** The page size a visitor asked for, as the page shows it. *)
Definition page_size (n : N) : N := if n =? 0 then 10 else if 1000 <? n then 1000 else n.

(** Names and types whose pages can be linked to. *)
Definition plain_byte (a : ascii) : Prop :=
  32 <= N_of_ascii a /\ N_of_ascii a <> 127 /\ a <> "?"%char /\ a <> "#"%char /\ a <> "%"%char.
Fixpoint plain (s : string) : Prop :=
  match s with EmptyString => True | String a rest => plain_byte a /\ plain rest end.
Definition linkable (pl : place) : Prop :=
  match pl with
  | InStream n => addressable n /\ plain n
  | OfType t => only_letters t /\ t <> ""
  end.

(** A pagination as the code can hold it: uint64 numbers, 1 to 1000 records. *)
Definition sane (p : pagination) : Prop :=
  1 <= pg_items p <= 1000 /\ pg_current p < 2 ^ 64 /\ Forall (fun n => n < 2 ^ 64) (pg_previous p).

(** A visitor's first request: no query, or a page size. *)
Inductive first_request (pl : place) : string -> N -> Prop :=
| FirstPlain p : spelled p (base_uri pl) -> lacks "?" p = true -> first_request pl p 10
| FirstSized p n : spelled p (base_uri pl) -> lacks "?" p = true -> n < 2 ^ 64 ->
    first_request pl (p ++ "?itemsPerPage=" ++ dec n)%string (page_size n).

(** A visit: the pages seen by asking for [target] and then following next links,
    where [see i] answers the [i]-th request. *)
Inductive visit (see : nat -> string -> ui_answer) : nat -> string -> list page -> Prop :=
| VLast i target p : see i target = Page p -> visit see i target [p]
| VNext i target p ps : see i target = Page p -> p_next p <> "" ->
    visit see (S i) (followed (p_next p)) ps -> visit see i target (p :: ps).

(** What the store holds at the time of a request, as reads show it: every read from
    [k] on gives the records numbered [k] and higher, in order. *)
Definition holds {St} (store : St -> op -> St * out) (s : St) (pl : place) (view : list record) : Prop :=
  (forall k, exists l, store s (place_read pl k) = (s, OutResults l)
     /\ (l = map RRec (filter (fun r => k <=? place_index pl r) view) \/ (view = [] /\ exists e, l = [RErr e]))) /\
  (match pl with InStream n => exists t, store s (OpTotal n None) = (s, OutTotal t) | OfType _ => True end) /\
  StronglySorted (fun a b => place_index pl a < place_index pl b) view /\
  Forall (fun r => place_index pl r < 2 ^ 64) view.

(** The query of a link: what stands between its first "?" and its fragment. *)
Definition query_of (link : string) : option string := snd (cut_byte "?" (fst (cut_byte "#" link))).
