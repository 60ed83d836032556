(** C38: the case of letters in the member names of a posted event. *)
From Verif Require Import Base Core CoreSpec DecText Text Json Http HttpSpec StoreSpec ToyCodec InMemory Properties_Http.
Open Scope string_scope.
Open Scope list_scope.
Open Scope N_scope.

(** The same letters, in upper or lower case (A is 65, a is 97). *)
Inductive same_letters : string -> string -> Prop :=
| same_nil : same_letters "" ""
| same_byte a s t : same_letters s t -> same_letters (String a s) (String a t)
| same_upper a b s t : 65 <= N_of_ascii a <= 90 -> N_of_ascii b = N_of_ascii a + 32 -> same_letters s t -> same_letters (String a s) (String b t)
| same_lower a b s t : 97 <= N_of_ascii a <= 122 -> N_of_ascii a = N_of_ascii b + 32 -> same_letters s t -> same_letters (String a s) (String b t).

(** The same event, its members named in any case. *)
Inductive same_event : json -> json -> Prop :=
| same_obj l l' : Forall2 (fun p p' => same_letters (fst p) (fst p') /\ snd p = snd p') l l' -> same_event (JObj l) (JObj l')
| same_other j : same_event j j.

Lemma lower_upper a b : 65 <= N_of_ascii a <= 90 -> N_of_ascii b = N_of_ascii a + 32 -> lower a = lower b.
Proof.
  intros H E. unfold lower. rewrite E. replace ((65 <=? N_of_ascii a) && (N_of_ascii a <=? 90)) with true
    by (symmetry; apply andb_true_iff; rewrite !N.leb_le; lia).
  replace ((65 <=? N_of_ascii a + 32) && (N_of_ascii a + 32 <=? 90)) with false
    by (symmetry; apply andb_false_iff; right; apply N.leb_gt; lia).
  rewrite <- E. apply ascii_N_embedding.
Qed.
Lemma letters_lower s t : same_letters s t -> forall k, fold_eq s k = fold_eq t k.
Proof.
  induction 1 as [|a s t H IH|a b s t Ha E H IH|a b s t Ha E H IH]; intros [|c k]; cbn [fold_eq]; try reflexivity; rewrite IH; try reflexivity; f_equal.
  - now rewrite (lower_upper a b).
  - now rewrite <- (lower_upper b a) by lia.
Qed.
Lemma event_same of_lit j j' : same_event j j' -> raw_of of_lit j = raw_of of_lit j'.
Proof.
  destruct 1 as [l l' F|]; [|reflexivity]. cbn [raw_of]. generalize zero_raw. induction F as [|[k v] [k' v'] l l' [Hk Hv] F IH]; intros w; [reflexivity|].
  cbn [fst snd] in *. subst v'. cbn [set_members]. assert (E : set_member of_lit w k v = set_member of_lit w k' v).
  { unfold set_member. rewrite !(letters_lower k k' Hk). reflexivity. }
  rewrite E. destruct (set_member of_lit w k' v); [apply IH|reflexivity].
Qed.

(** C38: two requests that differ only in the case of letters in the names of the members
    of their events are answered alike and leave the same store behind. *)
Theorem C38_names_in_any_case : forall of_lit print St (store : St -> op -> St * out) s method path ctype expected l l' stamp cancel,
  Forall2 same_event l l' ->
  http_step of_lit print St store s (mk_request method path ctype expected (Some (JArr l)) stamp cancel)
  = http_step of_lit print St store s (mk_request method path ctype expected (Some (JArr l')) stamp cancel).
Proof.
  intros of_lit print St store s method path ctype expected l l' stamp cancel F.
  assert (E : raws_of of_lit l = raws_of of_lit l').
  { induction F as [|j j' l l' Hj F IH]; [reflexivity|]. cbn [raws_of]. rewrite (event_same _ _ _ Hj), IH. reflexivity. }
  unfold http_step. cbn [q_path]. destruct (route_of path) as [r|]; [|reflexivity].
  destruct r; try reflexivity. unfold save_events, event_records, expected_header. cbn. rewrite E. reflexivity.
Qed.
Print Assumptions C38_names_in_any_case.

(** Non-vacuity: the names as some clients write them; another name is no match. *)
Example C38_names_inhabited :
  let ev t := JObj [(t, JStr "thing"); ("AGGREGATEID", JStr "x"); ("EventType", JStr "E"); ("Data", JStr "a")] in
  same_event (ev "AggregateType") (ev "aggregateType")
  /\ raw_of (fun _ => FOther "") (ev "AggregateType") = Some (mk_raw "thing" "x" "E" (GStr "a") GNil)
  /\ raw_of (fun _ => FOther "") (ev "aggregate_Type") = Some (mk_raw "" "x" "E" (GStr "a") GNil).
Proof.
  split; [|split; vm_compute; reflexivity]. constructor. constructor.
  - split; [|reflexivity]. cbn [fst]. apply same_upper; [vm_compute; split; discriminate|reflexivity|]. repeat constructor.
  - repeat (constructor; [split; [repeat constructor|reflexivity]|]). constructor.
Qed.
