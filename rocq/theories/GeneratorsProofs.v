(** Proofs about the generated code. *)
From Coq Require Import ZArith PeanoNat ZifyN.
From Verif Require Import Base DecText Text JsonText JsonTextSpec JsonTextProofs Generators GeneratorsSpec.
Open Scope string_scope.
Open Scope N_scope.

Lemma s_assoc (a b c : string) : a ++ (b ++ c) = (a ++ b) ++ c.
Proof. induction a; cbn; congruence. Qed.
Lemma s_nil (a : string) : a ++ "" = a.
Proof. induction a; cbn; congruence. Qed.
Lemma s_cancel (p x y : string) : p ++ x = p ++ y -> x = y.
Proof. induction p; cbn; intros H; [exact H|]. injection H as H. auto. Qed.
Lemma pre_app p s : String.prefix p (p ++ s) = true.
Proof. induction p as [|a p IH]; [destruct s; reflexivity|]. cbn. destruct (ascii_dec a a); [exact IH|congruence]. Qed.
Lemma sub_zero (c q : string) : substring 0 (String.length c) (c ++ q) = c.
Proof. induction c as [|a c IH]; cbn; [destruct q; reflexivity|congruence]. Qed.
Lemma sub_mid (p c q : string) : substring (String.length p) (String.length c) (p ++ (c ++ q)) = c.
Proof. induction p as [|a p IH]; cbn; [apply sub_zero|exact IH]. Qed.
Lemma sub_end (p c : string) : substring (String.length p) (String.length (p ++ c) - String.length p) (p ++ c) = c.
Proof.
  rewrite app_length_s. replace (String.length p + String.length c - String.length p)%nat with (String.length c) by lia.
  rewrite <- (s_nil c) at 2. apply sub_mid.
Qed.

(** * Lines *)
Lemma render_join ls : render ls = join (String newline "") (app ls [""]).
Proof.
  induction ls as [|l ls IH]; [reflexivity|]. cbn [render List.app]. rewrite IH.
  destruct (app ls [""]) eqn:E; [destruct ls; discriminate|]. reflexivity.
Qed.
Lemma lines_back ls : Forall (fun l => lacks newline l = true) ls -> lines_of (render ls) = app ls [""].
Proof.
  intros F. rewrite render_join. unfold lines_of. apply split_join_byte; [destruct ls; discriminate|].
  rewrite forallb_app. apply andb_true_iff. split; [|reflexivity]. apply forallb_forall. now rewrite Forall_forall in F.
Qed.

Lemma body_skip h ls rest : Forall (fun l => l <> h) ls -> body_of h (app ls rest) = body_of h rest.
Proof.
  induction ls as [|l ls IH]; [reflexivity|]. intros F. apply Forall_cons_iff in F as [N F]. cbn [List.app body_of].
  apply String.eqb_neq in N. rewrite N. auto.
Qed.
Lemma body_here h ls : body_of h (h :: ls) = until_brace ls.
Proof. cbn. now rewrite String.eqb_refl. Qed.
Lemma until_here ls rest : Forall (fun l => l <> "}") ls -> until_brace (app ls ("}" :: rest)) = ls.
Proof.
  induction ls as [|l ls IH]; [reflexivity|]. intros F. apply Forall_cons_iff in F as [N F]. cbn [List.app until_brace].
  apply String.eqb_neq in N. rewrite N. now rewrite IH.
Qed.

(** * Names *)
Lemma name_lacks s c : name_chars s = true -> name_char c = false -> lacks c s = true.
Proof.
  induction s as [|a s IH]; [reflexivity|]. cbn. intros H N. apply andb_prop in H as [H1 H2]. rewrite (IH H2 N), andb_true_r.
  destruct (Ascii.eqb_spec a c) as [->|]; [congruence|reflexivity].
Qed.
Lemma exported_name s : exported s -> go_name s.
Proof.
  destruct s as [|a s]; [intros []|]. intros [H1 H2]. split; [discriminate|]. cbn. rewrite H2, andb_true_r. unfold name_char.
  rewrite H1. now rewrite orb_true_r.
Qed.

Lemma lower_ascii n : between 65 90 n = true -> utf8 (n + 32) = String (ascii_of_N (n + 32)) "".
Proof.
  unfold between. intros H. apply andb_prop in H as [H1 H2]. apply N.leb_le in H1, H2. unfold utf8.
  replace (n + 32 <? 128) with true by (symmetry; apply N.ltb_lt; lia). reflexivity.
Qed.
Lemma lc_exported lower s : exported s -> lc_first lower s = method_of s.
Proof.
  destruct s as [|a s]; [intros []|]. intros [H1 H2]. unfold lc_first, method_of, first_rune.
  assert (L : N_of_ascii a <? 128 = true). { unfold between in H1. apply andb_prop in H1 as [A B]. apply N.leb_le in A, B. apply N.ltb_lt. lia. }
  assert (R : rune_len (String a s) = 1%nat) by (cbn [rune_len]; now rewrite L). rewrite R. cbn [String.get]. unfold to_lower. rewrite L, H1.
  rewrite (lower_ascii _ H1). reflexivity.
Qed.
Lemma method_name s : exported s -> name_chars (method_of s) = true.
Proof.
  destruct s as [|a s]; [reflexivity|]. intros [H1 H2]. cbn. rewrite H2, andb_true_r. unfold between in H1. apply andb_prop in H1 as [A B].
  apply N.leb_le in A, B. unfold name_char. rewrite N_ascii_embedding by lia. unfold between.
  replace (97 <=? N_of_ascii a + 32) with true by (symmetry; apply N.leb_le; lia).
  replace (N_of_ascii a + 32 <=? 122) with true by (symmetry; apply N.leb_le; lia). cbn. now rewrite !orb_true_r.
Qed.
Lemma method_inj s t : exported s -> exported t -> method_of s = method_of t -> s = t.
Proof.
  destruct s as [|a s]; [intros []|]. destruct t as [|b t]; [intros _ []|]. intros [A _] [B _] E. cbn in E. injection E as E ->.
  unfold between in A, B. apply andb_prop in A as [A1 A2], B as [B1 B2]. apply N.leb_le in A1, A2, B1, B2.
  apply (f_equal N_of_ascii) in E. rewrite !N_ascii_embedding in E by lia.
  assert (N_of_ascii a = N_of_ascii b) by lia. apply (f_equal ascii_of_N) in H. rewrite !ascii_N_embedding in H. now subst.
Qed.

Lemma case_at c : case_of (tab ++ "case " ++ c ++ ":") = Some c.
Proof.
  unfold case_of. change (tab ++ "case " ++ c ++ ":") with (String "009" "case " ++ (c ++ ":")).
  rewrite pre_app, app_length_s. rewrite app_length_s. change (String.length (String "009" "case ")) with 6%nat. change (String.length ":") with 1%nat.
  replace (6 + (String.length c + 1) - 7)%nat with (String.length c) by lia.
  change 6%nat with (String.length (String "009" "case ")). rewrite sub_mid, String.eqb_refl. reflexivity.
Qed.
Lemma case_call x : case_of (tab ++ tab ++ x) = None.
Proof. reflexivity. Qed.

Definition picked (v t : string) (cs : list string) : option string :=
  match List.find (fun c => String.eqb c t || String.eqb ("*" ++ c) t) cs with
  | Some c => Some (if String.eqb c t then call (method_of c) v else call (method_of c) ("*" ++ v))
  | None => None
  end.

Lemma chosen_cases lower v t cs : Forall exported cs -> forall l rest, case_of l = None ->
  chosen_by t (app (flat_map (case_lines lower v) cs) (l :: rest))
  = match picked v t cs with Some x => Some x | None => chosen_by t (l :: rest) end.
Proof.
  intros F l rest Hl. induction cs as [|c cs IH]; [reflexivity|]. apply Forall_cons_iff in F as [Fc F]. specialize (IH F).
  cbn [flat_map]. unfold case_lines at 1. rewrite <- List.app_assoc. cbn [List.app].
  set (tail := app (flat_map (case_lines lower v) cs) (l :: rest)) in *.
  assert (T : exists h q, tail = h :: q). { unfold tail. destruct cs; cbn; eauto. } destruct T as (h & q & T).
  set (l2 := tab ++ tab ++ "a." ++ lc_first lower c ++ "(" ++ v ++ ")").
  set (l5 := tab ++ tab ++ "a." ++ lc_first lower c ++ "(*" ++ v ++ ")").
  change (tab ++ "case *" ++ c ++ ":") with (tab ++ "case " ++ ("*" ++ c) ++ ":").
  set (k1 := tab ++ "case " ++ c ++ ":"). set (k2 := tab ++ "case " ++ ("*" ++ c) ++ ":").
  cbn [chosen_by]. change (case_of "") with (@None string). cbv iota. unfold k1 at 1. rewrite case_at. change (case_of l2) with (@None string). cbv iota.
  unfold k2 at 1. rewrite case_at. change (case_of l5) with (@None string). cbv iota.
  rewrite T in *. unfold picked. cbn [List.find].
  destruct (String.eqb_spec c t) as [E|N].
  - cbn [orb]. unfold l2, call. rewrite (lc_exported lower c Fc). subst t. rewrite String.eqb_refl. reflexivity.
  - cbn [orb]. destruct (String.eqb_spec ("*" ++ c) t) as [E|N2].
    + unfold l5, call. rewrite (lc_exported lower c Fc). apply String.eqb_neq in N. rewrite N. reflexivity.
    + exact IH.
Qed.

(** * The aggregate *)
Lemma find_exact (t : string) cs : Forall exported cs -> In t cs ->
  List.find (fun c => String.eqb c t || String.eqb ("*" ++ c) t) cs = Some t.
Proof.
  intros F Hi. induction cs as [|c cs IH]; [destruct Hi|]. apply Forall_cons_iff in F as [Fc F]. cbn [List.find].
  destruct (String.eqb_spec c t) as [->|N]; [reflexivity|]. cbn [orb].
  destruct Hi as [->|Hi]; [congruence|].
  destruct (String.eqb_spec ("*" ++ c) t) as [E|N2]; [|auto]. exfalso. subst t. rewrite Forall_forall in F. apply F in Hi. destruct Hi as [Hi _]. discriminate Hi.
Qed.
Lemma find_pointer (t : string) cs : Forall exported cs -> In t cs ->
  List.find (fun c => String.eqb c ("*" ++ t) || String.eqb ("*" ++ c) ("*" ++ t)) cs = Some t.
Proof.
  intros F Hi. induction cs as [|c cs IH]; [destruct Hi|]. apply Forall_cons_iff in F as [Fc F]. cbn [List.find].
  destruct (String.eqb_spec c ("*" ++ t)) as [E|N]; [subst c; destruct Fc as [Fc _]; discriminate Fc|]. cbn [orb].
  destruct (String.eqb_spec ("*" ++ c) ("*" ++ t)) as [E|N2]; [injection E as ->; reflexivity|].
  destruct Hi as [->|Hi]; [congruence|auto].
Qed.
Lemma picked_value v c cs : Forall exported cs -> In c cs -> picked v c cs = Some (call (method_of c) v).
Proof. intros F Hi. unfold picked. rewrite (find_exact c cs F Hi). now rewrite String.eqb_refl. Qed.
Lemma picked_pointer v c cs : Forall exported cs -> In c cs -> picked v ("*" ++ c) cs = Some (call (method_of c) ("*" ++ v)).
Proof.
  intros F Hi. unfold picked. rewrite (find_pointer c cs F Hi).
  destruct (String.eqb_spec c ("*" ++ c)) as [E|_]; [|reflexivity]. apply (f_equal String.length) in E. cbn in E. lia.
Qed.
Lemma picked_none v t cs : (forall c, In c cs -> t <> c /\ t <> "*" ++ c) -> picked v t cs = None.
Proof.
  intros H. unfold picked. destruct (List.find _ cs) as [c|] eqn:E; [|reflexivity]. apply find_some in E as [Hi E].
  destruct (H c Hi) as [N1 N2]. apply orb_true_iff in E as [E|E]; apply String.eqb_eq in E; subst; congruence.
Qed.

Lemma lacks_app c a b : lacks c (a ++ b) = lacks c a && lacks c b.
Proof. induction a as [|x a IH]; [reflexivity|]. cbn. rewrite IH. now rewrite andb_assoc. Qed.
Lemma name_line s : name_chars s = true -> lacks newline s = true.
Proof. intros H. apply name_lacks; [exact H|reflexivity]. Qed.
Lemma exported_line s : exported s -> lacks newline s = true.
Proof. intros H. apply name_line, exported_name, H. Qed.
Lemma method_line s : exported s -> lacks newline (method_of s) = true.
Proof. intros H. apply name_line, method_name, H. Qed.

(** A line inside a function: empty or indented. *)
Definition inner (l : string) : Prop := l = "" \/ exists r, l = tab ++ r.
Lemma inner_brace l : inner l -> l <> "}".
Proof. intros [->|(r & ->)]; discriminate. Qed.
Lemma inner_header l h : inner l -> l <> "func" ++ h.
Proof. intros [->|(r & ->)]; discriminate. Qed.
Lemma cases_inner lower v cs : Forall inner (flat_map (case_lines lower v) cs).
Proof.
  induction cs as [|c cs IH]; [constructor|]. cbn [flat_map]. apply Forall_app. split; [|exact IH].
  repeat (apply Forall_cons || apply Forall_nil); try (left; reflexivity); right; eexists; reflexivity.
Qed.
Lemma cases_lacks lower v cs : Forall exported cs -> lacks newline v = true -> Forall (fun l => lacks newline l = true) (flat_map (case_lines lower v) cs).
Proof.
  intros F Hv. induction F as [|c cs Fc F IH]; [constructor|]. cbn [flat_map]. apply Forall_app. split; [|exact IH].
  pose proof (exported_line c Fc) as L. pose proof (method_line c Fc) as M. unfold case_lines. rewrite (lc_exported lower c Fc).
  repeat (apply Forall_cons || apply Forall_nil); try reflexivity; rewrite ?lacks_app, ?L, ?M, ?Hv; reflexivity.
Qed.

Ltac line := repeat (apply Forall_cons || apply Forall_nil); rewrite ?lacks_app; try reflexivity.

Section Aggregate.
Variable lower : N -> N.
Variables stamp pkg name : string.
Variables commands events : list string.
Hypothesis Hs : lacks newline stamp = true.
Hypothesis Hp : lacks newline pkg = true.
Hypothesis Hn : go_name name.
Hypothesis Hc : Forall exported commands.
Hypothesis He : Forall exported events.

Lemma name_no_line : lacks newline name = true.
Proof. apply name_line, Hn. Qed.

Lemma aggregate_no_newlines : Forall (fun l => lacks newline l = true) (aggregate_lines lower stamp pkg name commands events).
Proof.
  pose proof name_no_line as L. unfold aggregate_lines.
  apply Forall_app; split; [|apply Forall_app; split; [|apply Forall_app; split; [|apply Forall_app; split]]].
  - unfold preamble. line; rewrite ?Hs, ?Hp; reflexivity.
  - unfold load_lines. repeat (apply Forall_app; split); [line; rewrite ?L; reflexivity| |line].
    destruct (no_strings events); line.
  - unfold apply_lines, apply_header. destruct (no_strings events); [constructor|]. repeat (apply Forall_app; split); [line; rewrite ?L; reflexivity| |line].
    now apply cases_lacks.
  - unfold handle_lines, handle_header. repeat (apply Forall_app; split); [line; rewrite ?L; reflexivity| |line].
    destruct (no_strings commands); [constructor|]. repeat (apply Forall_app; split); [line| |line]. now apply cases_lacks.
  - unfold rest_lines, types_header. repeat (apply Forall_app; split); [line; rewrite ?L; reflexivity| |line; rewrite ?L; reflexivity].
    apply Forall_map, Forall_forall. intros c Hi. rewrite Forall_forall in Hc. rewrite !lacks_app, (exported_line c (Hc c Hi)). reflexivity.
Qed.

Lemma aggregate_lines_back : lines_of (render (aggregate_lines lower stamp pkg name commands events))
  = app (aggregate_lines lower stamp pkg name commands events) [""].
Proof. apply lines_back, aggregate_no_newlines. Qed.

Definition fn (r : string) : string := "func (a *" ++ name ++ ") " ++ r.
Lemma fn_neq r r' : r <> r' -> fn r <> fn r'.
Proof. unfold fn. intros N E. apply s_cancel, s_cancel, s_cancel in E. congruence. Qed.
Lemma fn_inner l r : inner l -> l <> fn r.
Proof. intros [->|(q & ->)]; discriminate. Qed.

Lemma inner_skip r ls : Forall inner ls -> Forall (fun l => l <> fn r) ls.
Proof. apply Forall_impl. intros l. apply fn_inner. Qed.
Ltac inn := repeat (apply Forall_cons || apply Forall_nil); try (left; reflexivity); right; eexists; reflexivity.

Lemma preamble_skip r : Forall (fun l => l <> fn r) (preamble stamp pkg).
Proof. unfold preamble. repeat (apply Forall_cons || apply Forall_nil); discriminate. Qed.
Lemma load_skip r : r <> "Load(recordIterator rangedb.RecordIterator) {" -> Forall (fun l => l <> fn r) (load_lines name events).
Proof.
  intros N. unfold load_lines. repeat (apply Forall_app; split).
  - apply Forall_cons; [|apply inner_skip; inn]. intros E. eapply fn_neq; [|exact E]. congruence.
  - destruct (no_strings events); [constructor|]. apply inner_skip. inn.
  - repeat (apply Forall_cons || apply Forall_nil); discriminate.
Qed.
Lemma apply_skip r : r <> "apply(event rangedb.Event) {" -> Forall (fun l => l <> fn r) (apply_lines lower name events).
Proof.
  intros N. unfold apply_lines. destruct (no_strings events); [constructor|]. repeat (apply Forall_app; split).
  - apply Forall_cons; [|apply inner_skip; inn]. intros E. eapply fn_neq; [|exact E]. congruence.
  - apply inner_skip, cases_inner.
  - repeat (apply Forall_cons || apply Forall_nil); discriminate.
Qed.
Lemma handle_skip r : r <> "Handle(command cqrs.Command) []rangedb.Event {" -> Forall (fun l => l <> fn r) (handle_lines lower name commands).
Proof.
  intros N. unfold handle_lines. repeat (apply Forall_app; split).
  - apply Forall_cons; [|constructor]. intros E. eapply fn_neq; [|exact E]. congruence.
  - destruct (no_strings commands); [constructor|]. repeat (apply Forall_app; split).
    + apply inner_skip; inn.
    + apply inner_skip, cases_inner.
    + apply inner_skip; inn.
  - repeat (apply Forall_cons || apply Forall_nil); discriminate.
Qed.

Lemma handle_body : body_of (fn "Handle(command cqrs.Command) []rangedb.Event {") (app (aggregate_lines lower stamp pkg name commands events) [""])
  = app (if no_strings commands then [] else
           app [tab ++ "switch c := command.(type) {"] (app (flat_map (case_lines lower "c") commands) [""; tab ++ "}"; ""]))
        [tab ++ "defer a.resetPendingEvents()"; tab ++ "return a.pendingEvents"].
Proof.
  unfold aggregate_lines. rewrite <- !List.app_assoc. rewrite body_skip by apply preamble_skip. rewrite body_skip by (apply load_skip; discriminate).
  rewrite body_skip by (apply apply_skip; discriminate). unfold handle_lines. rewrite <- !List.app_assoc.
  change (app [handle_header name] ?x) with (fn "Handle(command cqrs.Command) []rangedb.Event {" :: x). rewrite body_here.
  match goal with |- until_brace (app ?a (app [?x; ?y; ?z; ?w] ?r)) = _ =>
    change (app a (app [x; y; z; w] r)) with (app a (app [x; y] (z :: w :: r))) end.
  rewrite List.app_assoc. apply until_here. apply Forall_impl with (P := inner); [apply inner_brace|].
  apply Forall_app. split; [|inn]. destruct (no_strings commands); [constructor|]. repeat (apply Forall_app; split); [inn|apply cases_inner|inn].
Qed.

Lemma apply_body : events <> [] -> body_of (fn "apply(event rangedb.Event) {") (app (aggregate_lines lower stamp pkg name commands events) [""])
  = app [tab ++ "switch e := event.(type) {"] (app (flat_map (case_lines lower "e") events) [""; tab ++ "}"]).
Proof.
  intros Hev. unfold aggregate_lines. rewrite <- !List.app_assoc. rewrite body_skip by apply preamble_skip. rewrite body_skip by (apply load_skip; discriminate).
  unfold apply_lines. destruct (no_strings events) eqn:E; [destruct events; [congruence|discriminate]|]. rewrite <- !List.app_assoc.
  match goal with |- body_of _ (app [?h; ?s] ?r) = _ => change (app [h; s] r) with (fn "apply(event rangedb.Event) {" :: app [s] r) end. rewrite body_here.
  match goal with |- until_brace (app ?a (app ?b (app [?x; ?y; ?z; ?w] ?r))) = _ =>
    change (app a (app b (app [x; y; z; w] r))) with (app a (app b (app [x; y] (z :: w :: r)))) end.
  rewrite !List.app_assoc. rewrite until_here; [now rewrite <- !List.app_assoc|]. apply Forall_impl with (P := inner); [apply inner_brace|].
  repeat (apply Forall_app; split); [inn|apply cases_inner|inn].
Qed.

Lemma types_body : body_of (fn "CommandTypes() []string {") (app (aggregate_lines lower stamp pkg name commands events) [""])
  = app [tab ++ "return []string{"] (app (map (fun c => tab ++ tab ++ c ++ "{}.CommandType(),") commands) [tab ++ "}"]).
Proof.
  unfold aggregate_lines. rewrite <- !List.app_assoc. rewrite body_skip by apply preamble_skip. rewrite body_skip by (apply load_skip; discriminate).
  rewrite body_skip by (apply apply_skip; discriminate). rewrite body_skip by (apply handle_skip; discriminate).
  unfold rest_lines. rewrite <- !List.app_assoc.
  match goal with |- body_of ?h (app [?a; ?b; ?c; ?d; ?e; ?f] ?r) = _ => change (app [a; b; c; d; e; f] r) with (app [a; b; c; d] (h :: app [f] r)) end.
  rewrite body_skip; [|repeat (apply Forall_cons || apply Forall_nil); try discriminate; intros E; eapply fn_neq; [|exact E]; discriminate].
  rewrite body_here.
  match goal with |- until_brace (app ?a (app ?b (app (?x :: ?y :: ?z) ?r))) = _ =>
    change (app a (app b (app (x :: y :: z) r))) with (app a (app b (app [x] (y :: app z r)))) end.
  rewrite !List.app_assoc. rewrite until_here; [now rewrite <- !List.app_assoc|]. apply Forall_impl with (P := inner); [apply inner_brace|].
  repeat (apply Forall_app; split); [inn| |inn]. apply Forall_map, Forall_forall. intros c _. right. eexists. reflexivity.
Qed.

Lemma handle_runs t : runs (render (aggregate_lines lower stamp pkg name commands events)) (fn "Handle(command cqrs.Command) []rangedb.Event {") t
  = picked "c" t commands.
Proof.
  unfold runs. rewrite aggregate_lines_back, handle_body. destruct (no_strings commands) eqn:E.
  - destruct commands; [reflexivity|discriminate].
  - rewrite <- !List.app_assoc. change (app [tab ++ "switch c := command.(type) {"] ?x) with ((tab ++ "switch c := command.(type) {") :: x).
    set (cs := flat_map _ _).
    assert (N : exists h q, app cs (app [""; tab ++ "}"; ""] [tab ++ "defer a.resetPendingEvents()"; tab ++ "return a.pendingEvents"]) = h :: q)
      by (unfold cs; destruct commands; cbn; eauto).
    destruct N as (h & q & N).
    assert (C : chosen_by t (app cs (app [""; tab ++ "}"; ""] [tab ++ "defer a.resetPendingEvents()"; tab ++ "return a.pendingEvents"])) = picked "c" t commands).
    { unfold cs. cbn [List.app]. rewrite chosen_cases by (exact Hc || reflexivity). destruct (picked "c" t commands); reflexivity. }
    rewrite N in *. cbn [chosen_by]. change (case_of (tab ++ "switch c := command.(type) {")) with (@None string). exact C.
Qed.

Lemma apply_runs t : runs (render (aggregate_lines lower stamp pkg name commands events)) (fn "apply(event rangedb.Event) {") t
  = picked "e" t events.
Proof.
  unfold runs. rewrite aggregate_lines_back. assert (D : events = [] \/ events <> []) by (destruct events; [now left|right; discriminate]). destruct D as [Ev|Ev].
  - assert (Z : body_of (fn "apply(event rangedb.Event) {") (app (aggregate_lines lower stamp pkg name commands events) [""]) = []); [|rewrite Z, Ev; reflexivity].
    unfold aggregate_lines. rewrite <- !List.app_assoc. rewrite body_skip by apply preamble_skip. rewrite body_skip by (apply load_skip; discriminate).
    rewrite Ev. unfold apply_lines. cbn [no_strings List.app]. rewrite body_skip by (apply handle_skip; discriminate).
    unfold rest_lines. rewrite <- !List.app_assoc. rewrite body_skip.
    2: { repeat (apply Forall_cons || apply Forall_nil); try discriminate; intros E; eapply fn_neq; try exact E; discriminate. }
    rewrite body_skip.
    2: { apply inner_skip. apply Forall_map, Forall_forall. intros c _. right. eexists. reflexivity. }
    rewrite <- (List.app_nil_r (app _ [""])). rewrite body_skip; [reflexivity|].
    repeat (apply Forall_cons || apply Forall_nil); try discriminate; intros E; eapply fn_neq; try exact E; discriminate.
  - rewrite apply_body by exact Ev.
    change (app [tab ++ "switch e := event.(type) {"] ?x) with ((tab ++ "switch e := event.(type) {") :: x).
    set (cs := flat_map _ _).
    assert (N : exists h q, app cs [""; tab ++ "}"] = h :: q) by (unfold cs; destruct (flat_map (case_lines lower "e") events); cbn; eauto).
    destruct N as (h & q & N).
    assert (C : chosen_by t (app cs [""; tab ++ "}"]) = picked "e" t events).
    { unfold cs. rewrite chosen_cases by (exact He || reflexivity). destruct (picked "e" t events); reflexivity. }
    rewrite N in *. cbn [chosen_by]. change (case_of (tab ++ "switch e := event.(type) {")) with (@None string). exact C.
Qed.
End Aggregate.

(** * The methods of commands *)
Lemma prefix_same p x y : String.prefix (p ++ x) (p ++ y) = String.prefix x y.
Proof. induction p as [|a p IH]; [reflexivity|]. cbn. destruct (ascii_dec a a); [exact IH|congruence]. Qed.
Lemma prefix_nil y : String.prefix "" y = true.
Proof. destruct y; reflexivity. Qed.
Lemma prefix_name c c' m m' : name_chars c = true -> name_chars c' = true -> String.prefix (c ++ ")" ++ m) (c' ++ ")" ++ m') = true ->
  c = c' /\ String.prefix m m' = true.
Proof.
  revert c'. induction c as [|a c IH]; intros [|b c'] H H' E.
  - split; [reflexivity|]. cbn [append] in E. change (String ")" m) with (")" ++ m) in E. change (String ")" m') with (")" ++ m') in E. now rewrite prefix_same in E.
  - exfalso. cbn [append] in E. cbn [String.prefix] in E. destruct (ascii_dec ")" b) as [<-|]; [discriminate H'|discriminate].
  - exfalso. cbn [append] in E. cbn [String.prefix] in E. destruct (ascii_dec a ")") as [->|]; [discriminate H|discriminate].
  - cbn [append] in E. cbn [String.prefix] in E. destruct (ascii_dec a b) as [<-|]; [|discriminate]. cbn in H, H'. apply andb_prop in H as [_ H], H' as [_ H'].
    destruct (IH c' H H' E) as [-> M]. auto.
Qed.

Lemma returned_skip pre ls rest : Forall (fun l => String.prefix pre l = false) ls -> returned pre (app ls rest) = returned pre rest.
Proof. induction 1 as [|l ls H _ IH]; [reflexivity|]. cbn [List.app returned]. now rewrite H. Qed.

(** A text that may stand in a Go string literal as it is. *)
Definition plain_char (a : ascii) : bool := negb (Ascii.eqb a """" || Ascii.eqb a "\" || Ascii.eqb a "010").
Fixpoint plain_chars (s : string) : bool := match s with EmptyString => true | String a r => plain_char a && plain_chars r end.
Lemma literal_plain s r : plain_chars s = true -> go_literal (s ++ String """" r) = Some (s, r).
Proof.
  induction s as [|a s IH]; [reflexivity|]. cbn [plain_chars]. intros H. apply andb_prop in H as [H1 H2]. cbn [append go_literal].
  unfold plain_char in H1. apply negb_true_iff, orb_false_iff in H1 as [H1 H3]. apply orb_false_iff in H1 as [H1 H4]. rewrite H1, H3, H4, (IH H2). reflexivity.
Qed.
Lemma plain_lacks s : plain_chars s = true <-> lacks """" s = true /\ lacks "\" s = true /\ lacks newline s = true.
Proof.
  induction s as [|a s IH]; [now cbn|]. cbn [plain_chars lacks]. rewrite !andb_true_iff, IH. unfold plain_char, newline. rewrite !negb_true_iff, !orb_false_iff. tauto.
Qed.
Lemma name_plain s : name_chars s = true -> plain_chars s = true.
Proof. intros H. apply plain_lacks. repeat split; apply name_lacks; auto. Qed.

Lemma literal_shorter s v r : go_literal s = Some (v, r) -> (String.length v + String.length r < String.length s)%nat.
Proof.
  remember (String.length s) as n eqn:En. assert (Hn : (String.length s <= n)%nat) by lia. clear En. revert s v r Hn.
  assert (G : forall n s v r, (String.length s <= n)%nat -> go_literal s = Some (v, r) -> (String.length v + String.length r < String.length s)%nat).
  { clear n. induction n as [|n IH]; intros s v r Hn H; (destruct s as [|a s]; [discriminate|]); [cbn in Hn; lia|]. cbn in Hn. cbn [go_literal] in H.
    destruct (Ascii.eqb a """"); [injection H as <- <-; cbn; lia|]. destruct (Ascii.eqb a "010"); [discriminate|]. destruct (Ascii.eqb a "\").
    - destruct s as [|e s]; [discriminate|]. cbn in Hn. cbv zeta in H. destruct (if N_of_ascii e =? 97 then _ else _) as [k|]; [|discriminate].
      destruct (go_literal s) as [[x y]|] eqn:E; [|discriminate]. injection H as <- <-. apply IH in E; [|lia]. cbn. lia.
    - destruct (go_literal s) as [[x y]|] eqn:E; [|discriminate]. injection H as <- <-. apply IH in E; [|lia]. cbn. lia. }
  intros s v r Hn H. pose proof (G _ s v r (Nat.le_refl _) H). lia.
Qed.
Lemma literal_only_plain s : go_literal (s ++ """ }") = Some (s, " }") -> plain_chars s = true.
Proof.
  induction s as [|a s IH]; [reflexivity|]. cbn [append go_literal plain_chars]. unfold plain_char.
  destruct (Ascii.eqb a """"); [discriminate|]. destruct (Ascii.eqb a "010"); [discriminate|]. destruct (Ascii.eqb a "\").
  - intros H. exfalso. destruct (s ++ """ }") as [|e q] eqn:Eq; [discriminate|]. cbv zeta in H. destruct (if N_of_ascii e =? 97 then _ else _) as [k|]; [|discriminate].
    destruct (go_literal q) as [[x y]|] eqn:E; [|discriminate]. injection H as _ -> ->. apply literal_shorter in E.
    apply (f_equal String.length) in Eq. rewrite app_length_s in Eq. cbn in Eq, E. lia.
  - destruct (go_literal (s ++ """ }")) as [[x y]|] eqn:E; [|discriminate]. intros [= -> ->]. cbn. auto.
Qed.

Definition type_pre (c : string) : string := "func (c " ++ c ++ ") AggregateType() string { return """.
Definition ctype_pre (c : string) : string := "func (c " ++ c ++ ") CommandType() string   { return """.

Section Commands.
Variables stamp pkg id type : string.
Variable commands : list string.
Hypothesis Hs : lacks newline stamp = true.
Hypothesis Hp : lacks newline pkg = true.
Hypothesis Hi : go_name id.
Hypothesis Hc : Forall exported commands.
Hypothesis Ht : lacks newline type = true.

Definition command_lines : list string :=
  app ["// Code generated by go generate; DO NOT EDIT."; "// This file was generated at"; "// " ++ stamp; "package " ++ pkg]
      (flat_map (method_lines id type) commands).

Lemma commands_back : lines_of (render command_lines) = app command_lines [""].
Proof.
  apply lines_back. unfold command_lines. apply Forall_app. split; [line; rewrite ?Hs, ?Hp; reflexivity|].
  pose proof (name_line id (proj2 Hi)) as L. induction Hc as [|c cs Fc F IH]; [constructor|]. cbn [flat_map]. apply Forall_app. split; [|exact (IH F)].
  pose proof (exported_line c Fc) as M. unfold method_lines. line; rewrite ?L, ?M, ?Ht; reflexivity.
Qed.

Lemma same_method c c' m m' : exported c -> exported c' ->
  String.prefix ("func (c " ++ c ++ ")" ++ m) ("func (c " ++ c' ++ ")" ++ m') = true -> c = c' /\ String.prefix m m' = true.
Proof. intros Fc Fc' E. rewrite prefix_same in E. apply prefix_name in E; auto; now apply exported_name. Qed.
Lemma other_method c c' m m' : exported c -> exported c' -> (c = c' -> String.prefix m m' = false) ->
  String.prefix ("func (c " ++ c ++ ")" ++ m) ("func (c " ++ c' ++ ")" ++ m') = false.
Proof.
  intros Fc Fc' N. destruct (String.prefix ("func (c " ++ c ++ ")" ++ m) _) eqn:E; [|reflexivity].
  apply same_method in E as [E1 E2]; auto. rewrite (N E1) in E2. discriminate.
Qed.

Lemma head_skip pre : (exists q, pre = "func" ++ q) ->
  Forall (fun l => String.prefix pre l = false) ["// Code generated by go generate; DO NOT EDIT."; "// This file was generated at"; "// " ++ stamp; "package " ++ pkg].
Proof. intros (q & ->). repeat (apply Forall_cons || apply Forall_nil); reflexivity. Qed.

Lemma returned_ctype c : In c commands -> returned (ctype_pre c) (app command_lines [""]) = Some c.
Proof.
  intros Hin. unfold command_lines. rewrite <- List.app_assoc. rewrite returned_skip by (apply head_skip; eexists; reflexivity).
  clear Hs Hp. induction commands as [|c' cs IH]; [destruct Hin|]. pose proof Hc as F. apply Forall_cons_iff in F as [Fc' F].
  assert (Fc : exported c) by (rewrite Forall_forall in Hc; auto).
  cbn [flat_map]. unfold method_lines at 1. rewrite <- List.app_assoc. unfold ctype_pre in *.
  match goal with |- returned _ (app [?a; ?b; ?c0; ?d] ?r) = _ => change (app [a; b; c0; d] r) with (app [a; b; c0] (d :: r)) end.
  rewrite returned_skip.
  2: { repeat (apply Forall_cons || apply Forall_nil); [reflexivity|apply other_method; auto|apply other_method; auto]; intros _; reflexivity. }
  cbn [returned]. destruct (string_dec c c') as [<-|N].
  - replace ("func (c " ++ c ++ ") CommandType() string   { return """ ++ c ++ """ }")
      with (("func (c " ++ c ++ ") CommandType() string   { return """) ++ (c ++ """ }")) by (rewrite <- !s_assoc; reflexivity).
    rewrite pre_app, sub_end. rewrite literal_plain by (apply name_plain, exported_name, Fc). reflexivity.
  - destruct Hin as [E|Hin]; [congruence|].
    change (") CommandType() string   { return """) with (")" ++ " CommandType() string   { return """) at 1.
    change (") CommandType() string   { return """ ++ c' ++ """ }") with (")" ++ (" CommandType() string   { return """ ++ c' ++ """ }")).
    rewrite other_method by (auto; congruence). apply IH; auto.
Qed.

Lemma type_at c : In c commands -> returned (type_pre c) (app command_lines [""])
  = match go_literal (type ++ """ }") with Some (v, r) => if String.eqb r " }" then Some v else None | None => None end.
Proof.
  intros Hin. unfold command_lines. rewrite <- List.app_assoc. rewrite returned_skip by (apply head_skip; eexists; reflexivity).
  clear Hs Hp. induction commands as [|c' cs IH]; [destruct Hin|]. pose proof Hc as F. apply Forall_cons_iff in F as [Fc' F].
  assert (Fc : exported c) by (rewrite Forall_forall in Hc; auto).
  cbn [flat_map]. unfold method_lines at 1. rewrite <- List.app_assoc. unfold type_pre in *.
  match goal with |- returned _ (app [?a; ?b; ?c0; ?d] ?r) = _ => change (app [a; b; c0; d] r) with (app [a; b] (c0 :: app [d] r)) end.
  rewrite returned_skip.
  2: { repeat (apply Forall_cons || apply Forall_nil); [reflexivity|apply other_method; auto]; intros _; reflexivity. }
  cbn [returned]. destruct (string_dec c c') as [<-|N].
  - replace ("func (c " ++ c ++ ") AggregateType() string { return """ ++ type ++ """ }")
      with (("func (c " ++ c ++ ") AggregateType() string { return """) ++ (type ++ """ }")) by (rewrite <- !s_assoc; reflexivity).
    rewrite pre_app, sub_end. reflexivity.
  - destruct Hin as [E|Hin]; [congruence|].
    change (") AggregateType() string { return """) with (")" ++ " AggregateType() string { return """) at 1.
    change (") AggregateType() string { return """ ++ type ++ """ }") with (")" ++ (" AggregateType() string { return """ ++ type ++ """ }")).
    rewrite other_method by (auto; congruence). rewrite returned_skip.
    2: { repeat (apply Forall_cons || apply Forall_nil).
         change (") AggregateType() string { return """) with (")" ++ " AggregateType() string { return """).
         change (") CommandType() string   { return """ ++ c' ++ """ }") with (")" ++ (" CommandType() string   { return """ ++ c' ++ """ }")).
         apply other_method; auto; congruence. }
    apply IH; auto.
Qed.
End Commands.

(** * Names that begin with a character above ASCII *)
Lemma app_same_length (a b x y : string) : a ++ x = b ++ y -> String.length a = String.length b -> a = b /\ x = y.
Proof.
  revert b. induction a as [|c a IH]; intros [|d b] E L; cbn in *; try discriminate; [auto|]. injection E as -> E. injection L as L.
  destruct (IH b E L) as [-> ->]. auto.
Qed.
Lemma text_tail u x : scalar u -> is_text (utf8 u ++ x) -> is_text x.
Proof.
  intros Hu (us & Hus & E). destruct us as [|u' us].
  - exfalso. cbn in E. pose proof (proj1 (utf8_rune u x Hu)) as R. rewrite E in R. unfold utf8 in R.
    destruct (u <? 128); [discriminate|]. destruct (u <? 2048); [discriminate|]. destruct (u <? 65536); discriminate.
  - apply Forall_cons_iff in Hus as [Hu' Hus]. cbn [fold_right] in E.
    pose proof (proj1 (utf8_rune u x Hu)) as R. rewrite E in R. rewrite (proj1 (utf8_rune u' _ Hu')) in R. symmetry in R.
    apply app_same_length in E as [_ ->]; auto. exists us. auto.
Qed.
Definition continuation (s : string) : Prop := match s with String a _ => 128 <= N_of_ascii a < 192 | EmptyString => False end.
Lemma byte_of n : n < 256 -> N_of_ascii (ascii_of_N n) = n.
Proof. apply N_ascii_embedding. Qed.
Lemma text_start s : is_text s -> continuation s -> False.
Proof.
  intros (us & Hus & ->) C. destruct us as [|u us]; [exact C|]. cbn [fold_right] in C. apply Forall_cons_iff in Hus as [Hu _]. unfold scalar in Hu. unfold utf8 in C.
  destruct (N.ltb_spec u 128); [|destruct (N.ltb_spec u 2048); [|destruct (N.ltb_spec u 65536)]]; cbn [append] in C; unfold continuation in C.
  - rewrite byte_of in C by lia. lia.
  - assert (u / 64 < 32) by (apply N.div_lt_upper_bound; lia). generalize dependent (u / 64). intros q C Hq. rewrite byte_of in C by lia. lia.
  - assert (u / 4096 < 16) by (apply N.div_lt_upper_bound; lia). generalize dependent (u / 4096). intros q C Hq. rewrite byte_of in C by lia. lia.
  - assert (u / 262144 < 5) by (apply N.div_lt_upper_bound; lia). generalize dependent (u / 262144). intros q C Hq. rewrite byte_of in C by lia. lia.
Qed.

Ltac Zify.zify_post_hook ::= Z.div_mod_to_equations.
Lemma rune_back u t : scalar u -> first_rune (utf8 u ++ t) = u.
Proof.
  intros Hu. pose proof (proj1 (utf8_rune u t Hu)) as R. unfold first_rune. rewrite R. unfold scalar in Hu. unfold utf8.
  destruct (N.ltb_spec u 128); [|destruct (N.ltb_spec u 2048); [|destruct (N.ltb_spec u 65536)]]; cbn [String.length append String.get];
    rewrite !byte_of by lia; lia.
Qed.

Lemma lc_not_text lower s u t : (forall v, scalar v -> scalar (lower v)) -> scalar u -> 128 <= u -> s = utf8 u ++ t -> ~ is_text (lc_first lower s).
Proof.
  intros Hl Hu Hb -> Ht.
  assert (R : exists a r, utf8 u ++ t = String a r /\ continuation r).
  { unfold scalar in Hu. unfold utf8.
    destruct (N.ltb_spec u 128); [lia|]. destruct (u <? 2048); [|destruct (u <? 65536)]; cbn [append]; eexists _, _; (split; [reflexivity|]); unfold continuation;
      rewrite byte_of by lia; lia. }
  destruct R as (a & r & E & C). pose proof (rune_back u t Hu) as F. rewrite E in *. cbn [lc_first] in Ht. rewrite F in Ht.
  apply text_tail in Ht.
  - exact (text_start r Ht C).
  - unfold to_lower. destruct (N.ltb_spec u 128); [lia|]. now apply Hl.
Qed.

(** * structparser *)
Lemma names_top file n : In (StructType n) file -> In n (struct_names file).
Proof. intros H. unfold struct_names. apply in_flat_map. exists (StructType n). split; [exact H|now left]. Qed.
Lemma names_flat file : (forall d, In d file -> match d with Func _ => False | _ => True end) ->
  struct_names file = flat_map (fun d => match d with StructType n => [n] | _ => [] end) file.
Proof.
  intros H. unfold struct_names. induction file as [|d file IH]; [reflexivity|]. cbn [flat_map]. rewrite IH by (intros; apply H; now right).
  specialize (H d (or_introl eq_refl)). destruct d; [reflexivity|reflexivity|destruct H].
Qed.
