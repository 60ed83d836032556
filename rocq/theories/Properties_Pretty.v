(** C107: readable JSON says the same as the JSON it was made from. *)
From Coq Require Import ZArith.
From Verif Require Import Base DecText Json JsonText JsonTextSpec JsonGrammar JsonGrammarReads Pretty PrettySpec PrettyProofs.
Open Scope string_scope.

(** A JSON text of the same value, laid out in lines. *)
Theorem C107_same_value : forall s j, says s j -> text_of 10000 j (pretty s) /\ laid 0 j (pretty s).
Proof. intros s j H. destruct (pretty_says s j H) as (_ & A & B). auto. Qed.
Print Assumptions C107_same_value.

(** Numbers, escapes, the order of members, repeated members: everything but the white space
    between is as it was. *)
Theorem C107_only_white_space : forall s j, says s j -> bare (pretty s) false false = bare s false false.
Proof. exact pretty_bare. Qed.
Print Assumptions C107_only_white_space.

(** Texts that differ in white space only look the same (as the tests of the API use it),
    and others do not. *)
Theorem C107_one_layout : forall s s' j j', says s j -> says s' j' ->
  (pretty s = pretty s' <-> bare s false false = bare s' false false).
Proof.
  intros s s' j j' H H'. split; [|exact (pretty_same s s' j j' H H')].
  intros E. now rewrite <- (pretty_bare s j H), <- (pretty_bare s' j' H'), E.
Qed.
Print Assumptions C107_one_layout.

Theorem C107_once_is_enough : forall s, pretty (pretty s) = pretty s.
Proof. exact pretty_again. Qed.
Print Assumptions C107_once_is_enough.

(** Nothing comes of what is no JSON, something of what is. *)
Theorem C107_no_json : forall s, pretty s = "" <-> (forall j, ~ says s j).
Proof.
  intros s. split; [|apply pretty_nothing]. intros E j H. destruct (C107_same_value s j H) as [T _]. destruct (text_head _ _ _ T) as (c & r & Ec & _). rewrite E in Ec. discriminate Ec.
Qed.
Print Assumptions C107_no_json.

Definition nl : string := String "010" "".
Definition odd_json : string := " {""a"" :[1, {},[ ] ,-0.50],""a"":""}, \""[""" ++ nl ++ "} ".
Example C107_inhabited :
  says odd_json (JObj [("a", JArr [JNum (Int 1); JObj []; JArr []; JNum (Lit "-0.50")]); ("a", JStr "}, ""[")])
  /\ pretty odd_json = "{" ++ nl ++ "  ""a"": [" ++ nl ++ "    1," ++ nl ++ "    {}," ++ nl ++ "    []," ++ nl ++ "    -0.50" ++ nl ++ "  ]," ++ nl ++ "  ""a"": ""}, \""[""" ++ nl ++ "}"
  /\ bare odd_json false false = "{""a"":[1,{},[],-0.50],""a"":""}, \""[""}"
  /\ (forall j, ~ says "[1,]" j) /\ pretty "[1,]" = "" /\ pretty "1 2" = "".
Proof.
  assert (R : exists rest, read_value odd_json = Some (JObj [("a", JArr [JNum (Int 1); JObj []; JArr []; JNum (Lit "-0.50")]); ("a", JStr "}, ""[")], rest) /\ skip rest = "") by (eexists; split; vm_compute; reflexivity).
  split.
  { destruct R as (rest & R & K). apply read_says in R as (w & t & E & Hw & Ht). exists w, t, rest. split; [exact E|]. split; [exact Hw|]. split; [exact Ht|]. now apply skip_nothing. }
  split; [vm_compute; reflexivity|]. split; [vm_compute; reflexivity|]. split; [apply C107_no_json; vm_compute; reflexivity|]. split; vm_compute; reflexivity.
Qed.
