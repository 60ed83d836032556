(** provider/postgresstore: the text and the arguments of the multi-row INSERT. *)
From Verif Require Import Base DecText.

(** The values of a batchSQLRecord as arguments of the driver. *)
Inductive arg := AText (s : string) | ANum (n : N).

(** postgres_store.go:472-473 *)
Definition group_text (i : N) : string :=
  ("($" ++ dec (i * 9 + 1) ++ ", $" ++ dec (i * 9 + 2) ++ ", $" ++ dec (i * 9 + 3) ++ ", $" ++ dec (i * 9 + 4)
   ++ ", $" ++ dec (i * 9 + 5) ++ ", $" ++ dec (i * 9 + 6) ++ ", $" ++ dec (i * 9 + 7) ++ ", $" ++ dec (i * 9 + 8)
   ++ ", $" ++ dec (i * 9 + 9) ++ ")")%string.

(** 474-484 *)
Definition record_args (r : record) : list arg :=
  [AText (r_stream r); AText (r_atype r); AText (r_aid r); ANum (r_ssn r); ANum (r_ts r);
   AText (r_eid r); AText (r_etype r); AText (r_data r); AText (r_meta r)].

(** 466-488: the loop, and strings.Join with "," (492). *)
Fixpoint value_strings (i : N) (rows : list record) : list string :=
  match rows with [] => [] | _ :: rest => group_text i :: value_strings (i + 1) rest end.
Definition value_args (rows : list record) : list arg := flat_map record_args rows.
Fixpoint join (sep : string) (l : list string) : string :=
  match l with
  | [] => ""
  | [x] => x
  | x :: rest => x ++ sep ++ join sep rest
  end.
Definition values_text (rows : list record) : string := join "," (value_strings 0 rows).

(** The column list of the statement, 491. *)
Definition columns : list string :=
  ["StreamName"; "AggregateType"; "AggregateID"; "StreamSequenceNumber"; "InsertTimestamp"; "EventID"; "EventType"; "Data"; "Metadata"].

(** ** What PostgreSQL makes of it (specification) *)

(** The placeholder groups of a VALUES list: for every parenthesised group the
    numbers behind its dollar signs. *)
Record scan := mk_scan { sc_groups : list (list N); sc_open : list N; sc_num : option N }.
Definition flush (z : scan) : scan :=
  match sc_num z with Some n => mk_scan (sc_groups z) (sc_open z ++ [n]) None | None => z end.
Definition scan_char (z : scan) (a : ascii) : scan :=
  match digit a, sc_num z with
  | Some d, Some n => mk_scan (sc_groups z) (sc_open z) (Some (10 * n + d))
  | _, _ =>
      let z := flush z in
      if Ascii.eqb a "$" then mk_scan (sc_groups z) (sc_open z) (Some 0)
      else if Ascii.eqb a "(" then mk_scan (sc_groups z) [] None
      else if Ascii.eqb a ")" then mk_scan (sc_groups z ++ [sc_open z]) [] None
      else z
  end.
Fixpoint scan_text (z : scan) (s : string) : scan :=
  match s with EmptyString => z | String a rest => scan_text (scan_char z a) rest end.
Definition groups (s : string) : list (list N) := sc_groups (scan_text (mk_scan [] [] None) s).

(** [$n] stands for the [n]-th argument. *)
Definition argument (args : list arg) (n : N) : option arg :=
  if n =? 0 then None else nth_error args (N.to_nat (n - 1)).

(** The field a column of the table is for. *)
Definition field (column : string) (r : record) : option arg :=
  if String.eqb column "StreamName" then Some (AText (r_stream r))
  else if String.eqb column "AggregateType" then Some (AText (r_atype r))
  else if String.eqb column "AggregateID" then Some (AText (r_aid r))
  else if String.eqb column "StreamSequenceNumber" then Some (ANum (r_ssn r))
  else if String.eqb column "InsertTimestamp" then Some (ANum (r_ts r))
  else if String.eqb column "EventID" then Some (AText (r_eid r))
  else if String.eqb column "EventType" then Some (AText (r_etype r))
  else if String.eqb column "Data" then Some (AText (r_data r))
  else if String.eqb column "Metadata" then Some (AText (r_meta r))
  else None.

(** ** Proofs *)
Lemma scan_app z s s' : scan_text z (s ++ s') = scan_text (scan_text z s) s'.
Proof. revert z. induction s as [|a s IH]; intros z; cbn; auto. Qed.
Lemma scan_uint u : forall g o n, scan_text (mk_scan g o (Some n)) (DecimalString.NilEmpty.string_of_uint u) = mk_scan g o (Some (uval n u)).
Proof.
  induction u; intros g o n; [reflexivity|..]; cbn [DecimalString.NilEmpty.string_of_uint scan_text uval].
  all: match goal with |- scan_text (scan_char ?z ?c) _ = _ =>
    let d := eval vm_compute in (match digit c with Some d => d | None => 0 end) in
    change (scan_char z c) with (mk_scan g o (Some (10 * n + d))) end.
  all: rewrite IHu, ?N.add_0_r; reflexivity.
Qed.
Lemma scan_dec g o n : scan_text (mk_scan g o (Some 0)) (dec n) = mk_scan g o (Some n).
Proof. unfold dec. rewrite scan_uint. now rewrite uval_to. Qed.

Definition nine (i : N) : list N := [i * 9 + 1; i * 9 + 2; i * 9 + 3; i * 9 + 4; i * 9 + 5; i * 9 + 6; i * 9 + 7; i * 9 + 8; i * 9 + 9].

Lemma scan_open g o : scan_text (mk_scan g o None) "($" = mk_scan g [] (Some 0).
Proof. reflexivity. Qed.
Lemma scan_next g o n : scan_text (mk_scan g o (Some n)) ", $" = mk_scan g (o ++ [n]) (Some 0).
Proof. reflexivity. Qed.
Lemma scan_close g o n : scan_text (mk_scan g o (Some n)) ")" = mk_scan (g ++ [o ++ [n]]) [] None.
Proof. reflexivity. Qed.

Lemma scan_group g o i : scan_text (mk_scan g o None) (group_text i) = mk_scan (g ++ [nine i]) [] None.
Proof.
  unfold group_text. rewrite !scan_app, scan_open. do 8 rewrite scan_dec, scan_next. rewrite scan_dec, scan_close. reflexivity.
Qed.
Lemma scan_comma g o : scan_text (mk_scan g o None) "," = mk_scan g o None.
Proof. reflexivity. Qed.

Fixpoint nines (i : N) (rows : list record) : list (list N) :=
  match rows with [] => [] | _ :: rest => nine i :: nines (i + 1) rest end.

Lemma scan_join rows : forall i g, scan_text (mk_scan g [] None) (join "," (value_strings i rows)) = mk_scan (g ++ nines i rows) [] None.
Proof.
  induction rows as [|r rows IH]; intros i g; cbn [value_strings nines].
  - cbn. now rewrite app_nil_r.
  - destruct rows as [|r' rows'].
    + cbn [value_strings join nines]. apply scan_group.
    + cbn [join]. change (value_strings (i + 1) (r' :: rows')) with (group_text (i + 1) :: value_strings (i + 1 + 1) rows') at 1.
      cbn iota. change (group_text (i + 1) :: value_strings (i + 1 + 1) rows') with (value_strings (i + 1) (r' :: rows')).
      rewrite !scan_app, scan_group, scan_comma, IH, <- app_assoc. reflexivity.
Qed.

Lemma nine_args pre r post i : length pre = N.to_nat (i * 9) ->
  map (argument (pre ++ record_args r ++ post)) (nine i) = map Some (record_args r).
Proof.
  intros Hl. unfold nine.
  assert (A : forall c, (N.to_nat c < 9)%nat -> argument (pre ++ record_args r ++ post) (i * 9 + (c + 1)) = nth_error (record_args r) (N.to_nat c)).
  { intros c Hc. unfold argument. destruct (N.eqb_spec (i * 9 + (c + 1)) 0); [lia|].
    rewrite nth_error_app2 by lia. rewrite nth_error_app1 by (cbn; lia). f_equal. lia. }
  cbn [map]. pose proof (A 0) as A0. pose proof (A 1) as A1. pose proof (A 2) as A2. pose proof (A 3) as A3. pose proof (A 4) as A4.
  pose proof (A 5) as A5. pose proof (A 6) as A6. pose proof (A 7) as A7. pose proof (A 8) as A8.
  cbn [N.add Pos.add Pos.succ] in *. rewrite A0, A1, A2, A3, A4, A5, A6, A7, A8 by (cbn; lia). reflexivity.
Qed.

Lemma record_args_length r : length (record_args r) = 9%nat.
Proof. reflexivity. Qed.

Lemma nines_args rows : forall pre i, length pre = N.to_nat (i * 9) ->
  map (map (argument (pre ++ value_args rows))) (nines i rows) = map (fun r => map Some (record_args r)) rows.
Proof.
  induction rows as [|r rows IH]; intros pre i Hl; [reflexivity|]. unfold value_args in *. cbn [nines flat_map]. cbn [map]. f_equal.
  - now apply nine_args.
  - rewrite app_assoc. apply IH. rewrite app_length, record_args_length. lia.
Qed.

Lemma fields_args r : map Some (record_args r) = map (fun c => field c r) columns.
Proof. reflexivity. Qed.

Lemma insert_binds rows : map (map (argument (value_args rows))) (groups (values_text rows)) = map (fun r => map (fun c => field c r) columns) rows.
Proof.
  unfold groups, values_text. rewrite scan_join. cbn [sc_groups app]. pose proof (nines_args rows [] 0 eq_refl) as E. cbn [app] in E. rewrite E.
  apply map_ext. intros r. apply fields_args.
Qed.
