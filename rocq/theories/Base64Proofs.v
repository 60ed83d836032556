(** The decoder of Encodings.v reads what Base64Spec.v says a text stands for. *)
From Coq Require Import ZArith PeanoNat ZifyN.
From Verif Require Import Base Text JsonText JsonTextSpec JsonTextProofs Encodings EncodingsProofs Base64Spec.
Open Scope string_scope.
Open Scope list_scope.
Open Scope N_scope.

Definition six (v : N) : list bool := map (N.testbit v) [5; 4; 3; 2; 1; 0].

Lemma value_letter a : match symbol_value a with
  | Some v => v < 64 /\ letter a (six v)
  | None => forall bits, ~ letter a bits end.
Proof.
  destruct (symbol_value a) as [v|] eqn:E.
  - assert (T : all_below 256 (fun n => match symbol_value (ascii_of_N n) with
        | Some v => (v <? 64) && match String.get (N.to_nat v) alphabet with Some b => Ascii.eqb b (ascii_of_N n) | None => false end
                    && forallb (fun k => Bool.eqb (Nat.testbit (N.to_nat v) k) (N.testbit v (N.of_nat k))) [5; 4; 3; 2; 1; 0]%nat
        | None => true end) = true) by (vm_compute; reflexivity).
    pose proof (all_below_spec _ _ T (N_of_ascii a) (byte_bound a)) as K. cbn beta in K. rewrite ascii_N_embedding, E in K.
    apply andb_true_iff in K as [K K3]. apply andb_true_iff in K as [K1 K2]. apply N.ltb_lt in K1. split; [exact K1|].
    exists (N.to_nat v). destruct (String.get (N.to_nat v) alphabet) as [b|]; [|discriminate]. apply Ascii.eqb_eq in K2. subst b.
    split; [reflexivity|]. rewrite forallb_forall in K3. unfold six. cbn [map].
    repeat f_equal; symmetry; apply Bool.eqb_prop;
      match goal with |- Bool.eqb (Nat.testbit _ ?k) _ = _ => apply (K3 k) end; cbn; tauto.
  - intros bits (i & Hi & _).
    assert (T : forallb (fun i => match String.get i alphabet with Some b => match symbol_value b with Some _ => true | None => false end | None => true end) (seq 0 64) = true)
      by (vm_compute; reflexivity).
    rewrite forallb_forall in T. destruct (Nat.lt_ge_cases i 64) as [L|L].
    + specialize (T i ltac:(apply in_seq; lia)). cbn beta in T. rewrite Hi, E in T. discriminate.
    + assert (String.length alphabet <= i)%nat as L2 by (cbn; lia). clear - Hi L2. revert i Hi L2. induction alphabet as [|b s IH]; intros i Hi L2; [discriminate|]. destruct i; cbn in *; [lia|]. apply (IH i Hi). lia.
Qed.

Lemma letter_value a bits : letter a bits <-> exists v, symbol_value a = Some v /\ bits = six v.
Proof.
  split.
  - intros (i & Hi & ->).
    assert (T : forallb (fun i => match String.get i alphabet with
        | Some b => match symbol_value b with Some v => N.eqb v (N.of_nat i) | None => false end
        | None => true end && forallb (fun k => Bool.eqb (Nat.testbit i k) (N.testbit (N.of_nat i) (N.of_nat k))) [5; 4; 3; 2; 1; 0]%nat) (seq 0 64) = true)
      by (vm_compute; reflexivity).
    rewrite forallb_forall in T. destruct (Nat.lt_ge_cases i 64) as [L|L].
    + specialize (T i ltac:(apply in_seq; lia)). cbn beta in T. rewrite Hi in T. apply andb_true_iff in T as [T1 T2].
      destruct (symbol_value a) as [v|]; [|discriminate]. apply N.eqb_eq in T1. subst v.
      exists (N.of_nat i). split; [reflexivity|]. rewrite forallb_forall in T2. unfold six. cbn [map].
      repeat f_equal; apply Bool.eqb_prop;
        match goal with |- Bool.eqb (Nat.testbit _ ?k) _ = _ => apply (T2 k) end; cbn; tauto.
    + assert (String.length alphabet <= i)%nat as L2 by (cbn; lia). clear - Hi L2. exfalso. revert i Hi L2.
      induction alphabet as [|b s IH]; intros i Hi L2; [discriminate|]. destruct i; cbn in *; [lia|]. apply (IH i Hi). lia.
  - intros (v & E & ->). pose proof (value_letter a) as K. rewrite E in K. apply K.
Qed.

(** Eight bits at a time. *)
Fixpoint eights (l : list bool) : list ascii :=
  match l with
  | b7 :: b6 :: b5 :: b4 :: b3 :: b2 :: b1 :: b0 :: r => Ascii b0 b1 b2 b3 b4 b5 b6 b7 :: eights r
  | _ => []
  end.
Lemma eights_bits bytes spare : (length spare < 8)%nat -> eights (concat (map byte_bits bytes) ++ spare) = bytes.
Proof.
  intros H. induction bytes as [|[b0 b1 b2 b3 b4 b5 b6 b7] bytes IH]; cbn [map concat byte_bits app eights].
  - do 8 (destruct spare as [|? spare]; [reflexivity|]). cbn in H. lia.
  - now rewrite IH.
Qed.
Lemma eights_back : forall n l, (length l <= n)%nat -> exists spare, l = concat (map byte_bits (eights l)) ++ spare /\ (length spare < 8)%nat.
Proof.
  induction n as [|n IH]; intros l H.
  { destruct l; [|cbn in H; lia]. exists []. split; [reflexivity|cbn; lia]. }
  do 8 (destruct l as [|? l]; [eexists; split; [reflexivity|cbn; lia]|]).
  destruct (IH l ltac:(cbn in H; lia)) as (spare & E & K). exists spare. split; [|exact K].
  cbn [eights map concat byte_bits app]. now rewrite <- E.
Qed.

Lemma byte_bits_inj a b : byte_bits a = byte_bits b -> a = b.
Proof. destruct a, b. cbn. intros H. injection H. intros. now subst. Qed.

Definition same_bits (l m : list bool) : bool := if list_eq_dec Bool.bool_dec l m then true else false.
Lemma same_bits_eq l m : same_bits l m = true -> l = m.
Proof. unfold same_bits. destruct (list_eq_dec _ _ _); [auto|discriminate]. Qed.

Lemma pairwise (p : N -> N -> bool) : all_below 64 (fun v => all_below 64 (p v)) = true -> forall v w, v < 64 -> w < 64 -> p v w = true.
Proof.
  intros T v w Hv Hw. pose proof (all_below_spec _ _ T v Hv) as K. cbn beta in K. exact (all_below_spec _ _ K w Hw).
Qed.
Lemma first_byte w x : w < 64 -> x < 64 -> byte_bits (byte_of ((w * 64 + x) / 16)) = six w ++ firstn 2 (six x).
Proof.
  intros Hw Hx. apply same_bits_eq.
  apply (pairwise (fun w x => same_bits (byte_bits (byte_of ((w * 64 + x) / 16))) (six w ++ firstn 2 (six x)))); [vm_compute; reflexivity|assumption|assumption].
Qed.
Lemma second_byte x y : x < 64 -> y < 64 -> byte_bits (byte_of ((x * 64 + y) / 4)) = skipn 2 (six x) ++ firstn 4 (six y).
Proof.
  intros Hw Hx. apply same_bits_eq.
  apply (pairwise (fun x y => same_bits (byte_bits (byte_of ((x * 64 + y) / 4))) (skipn 2 (six x) ++ firstn 4 (six y)))); [vm_compute; reflexivity|assumption|assumption].
Qed.
Lemma third_byte y z : y < 64 -> z < 64 -> byte_bits (byte_of (y * 64 + z)) = skipn 4 (six y) ++ six z.
Proof.
  intros Hw Hx. apply same_bits_eq.
  apply (pairwise (fun y z => same_bits (byte_bits (byte_of (y * 64 + z))) (skipn 4 (six y) ++ six z))); [vm_compute; reflexivity|assumption|assumption].
Qed.

Lemma byte_of_mod n m : n mod 256 = m mod 256 -> byte_of n = byte_of m.
Proof. unfold byte_of. now intros ->. Qed.
Lemma eights_byte a l r : byte_bits a = l -> eights (l ++ r) = a :: eights r.
Proof. intros <-. now destruct a. Qed.

Lemma six_two x : six x = firstn 2 (six x) ++ skipn 2 (six x).
Proof. symmetry. apply firstn_skipn. Qed.
Lemma six_four x : six x = firstn 4 (six x) ++ skipn 4 (six x).
Proof. symmetry. apply firstn_skipn. Qed.

Lemma eights_four w x y z r : w < 64 -> x < 64 -> y < 64 -> z < 64 ->
  eights (six w ++ six x ++ six y ++ six z ++ r) =
  byte_of (((((w * 64 + x) * 64 + y) * 64 + z)) / 65536) :: byte_of ((((w * 64 + x) * 64 + y) * 64 + z) / 256)
    :: byte_of (((w * 64 + x) * 64 + y) * 64 + z) :: eights r.
Proof.
  intros Hw Hx Hy Hz.
  rewrite (byte_of_mod ((((w * 64 + x) * 64 + y) * 64 + z) / 65536) ((w * 64 + x) / 16)) by lia.
  rewrite (byte_of_mod ((((w * 64 + x) * 64 + y) * 64 + z) / 256) ((x * 64 + y) / 4)) by lia.
  rewrite (byte_of_mod (((w * 64 + x) * 64 + y) * 64 + z) (y * 64 + z)) by lia.
  rewrite (six_two x), (six_four y). rewrite <- !app_assoc.
  rewrite (app_assoc (six w)), (eights_byte _ _ _ (first_byte w x Hw Hx)). f_equal.
  rewrite (app_assoc (skipn 2 (six x))), (eights_byte _ _ _ (second_byte x y Hx Hy)). f_equal.
  rewrite (app_assoc (skipn 4 (six y))), (eights_byte _ _ _ (third_byte y z Hy Hz)). reflexivity.
Qed.
Lemma eights_three w x y : w < 64 -> x < 64 -> y < 64 ->
  eights (six w ++ six x ++ six y) = [byte_of (((w * 64 + x) * 64 + y) / 1024); byte_of (((w * 64 + x) * 64 + y) / 4)].
Proof.
  intros Hw Hx Hy.
  rewrite (byte_of_mod (((w * 64 + x) * 64 + y) / 1024) ((w * 64 + x) / 16)) by lia.
  rewrite (byte_of_mod (((w * 64 + x) * 64 + y) / 4) ((x * 64 + y) / 4)) by lia.
  rewrite (six_two x), (six_four y). rewrite <- !app_assoc.
  rewrite (app_assoc (six w)), (eights_byte _ _ _ (first_byte w x Hw Hx)). f_equal.
  rewrite (app_assoc (skipn 2 (six x))), (eights_byte _ _ _ (second_byte x y Hx Hy)). reflexivity.
Qed.
Lemma eights_two w x : w < 64 -> x < 64 -> eights (six w ++ six x) = [byte_of ((w * 64 + x) / 16)].
Proof.
  intros Hw Hx. rewrite (six_two x), (app_assoc (six w)), (eights_byte _ _ _ (first_byte w x Hw Hx)). reflexivity.
Qed.

Definition valued (a : ascii) (v : N) : Prop := symbol_value a = Some v.
Definition filled (pad : bool) (n : nat) (fill : list ascii) : Prop :=
  (n mod 4 <> 1 /\ if pad then In fill [[]; ["="]; ["="; "="]]%char /\ (n + length fill) mod 4 = 0 else fill = [])%nat.
Lemma mod4 n : (S (S (S (S n))) mod 4 = n mod 4)%nat.
Proof. change (S (S (S (S n)))) with (4 + n)%nat. rewrite <- Nat.add_mod_idemp_l by lia. reflexivity. Qed.
Lemma filled_four pad n fill : filled pad (S (S (S (S n)))) fill <-> filled pad n fill.
Proof.
  unfold filled. rewrite mod4. change (S (S (S (S n))) + length fill)%nat with (S (S (S (S (n + length fill))))). now rewrite mod4.
Qed.
Lemma valued_bound a v : valued a v -> v < 64.
Proof. intros H. pose proof (value_letter a) as K. unfold valued in H. rewrite H in K. apply K. Qed.

Lemma quanta_reads pad : forall n letters vs fill, (length letters <= n)%nat -> Forall2 valued letters vs -> filled pad (length letters) fill ->
  quanta pad (string_of_list_ascii (letters ++ fill)) = Some (string_of_list_ascii (eights (concat (map six vs)))).
Proof.
  induction n as [|n IH]; intros letters vs fill Hn HV HF.
  - destruct letters; [|cbn in Hn; lia]. inversion HV; subst. destruct HF as [_ HF]. destruct pad.
    + destruct HF as [[<-|[<-|[<-|[]]]] HF]; try discriminate HF. reflexivity.
    + subst fill. reflexivity.
  - destruct HV as [|a w letters vs Ha HV].
    { destruct HF as [_ HF]. destruct pad; [destruct HF as [[<-|[<-|[<-|[]]]] HF]; try discriminate HF|subst fill]; reflexivity. }
    destruct HV as [|b x letters vs Hb HV]. { exfalso. apply HF. reflexivity. }
    pose proof (valued_bound _ _ Ha). pose proof (valued_bound _ _ Hb). unfold valued in Ha, Hb.
    destruct HV as [|c y letters vs Hc HV].
    { destruct HF as [_ HF]. cbn [map concat app]. rewrite app_nil_r, eights_two by assumption. destruct pad.
      - destruct HF as [[<-|[<-|[<-|[]]]] HF]; try discriminate HF. cbn. now rewrite Ha, Hb.
      - subst fill. cbn. now rewrite Ha, Hb. }
    pose proof (valued_bound _ _ Hc). unfold valued in Hc.
    destruct HV as [|d z letters vs Hd HV].
    { destruct HF as [_ HF]. cbn [map concat app]. rewrite app_nil_r, eights_three by assumption. destruct pad.
      - destruct HF as [[<-|[<-|[<-|[]]]] HF]; try discriminate HF. cbn. now rewrite Ha, Hb, Hc.
      - subst fill. cbn. now rewrite Ha, Hb, Hc. }
    pose proof (valued_bound _ _ Hd). unfold valued in Hd.
    cbn [map concat]. rewrite eights_four by assumption. cbn [app string_of_list_ascii quanta]. rewrite Ha, Hb, Hc, Hd.
    rewrite (IH letters vs fill); [reflexivity|cbn in Hn; lia|exact HV|]. cbn [length] in HF. now apply filled_four.
Qed.

Lemma pad_none : symbol_value "=" = None. Proof. reflexivity. Qed.

Lemma quanta_shape pad : forall n t b, (String.length t <= n)%nat -> quanta pad t = Some b ->
  exists letters vs fill, list_ascii_of_string t = letters ++ fill /\ Forall2 valued letters vs /\ filled pad (length letters) fill.
Proof.
  assert (Z : exists letters vs fill, list_ascii_of_string "" = letters ++ fill /\ Forall2 valued letters vs /\ filled pad (length letters) fill).
  { exists [], [], []. split; [reflexivity|]. split; [constructor|]. split; [discriminate|]. destruct pad; [split; [now left|reflexivity]|reflexivity]. }
  induction n as [|n IH]; intros t b Hn E.
  { destruct t; [|cbn in Hn; lia]. exact Z. }
  destruct t as [|a [|b1 r]]; [exact Z|discriminate E|]. cbn [quanta] in E.
  destruct (symbol_value a) as [w|] eqn:Ea; [|discriminate]. destruct (symbol_value b1) as [x|] eqn:Eb; [|discriminate].
  destruct r as [|c r].
  { destruct pad; [discriminate|]. exists [a; b1], [w; x], []. split; [reflexivity|]. split; [repeat (apply Forall2_cons; [assumption|]); constructor|].
    split; [discriminate|reflexivity]. }
  destruct (symbol_value c) as [y|] eqn:Ec.
  - destruct r as [|d r].
    { destruct pad; [discriminate|]. exists [a; b1; c], [w; x; y], []. split; [reflexivity|]. split; [repeat (apply Forall2_cons; [assumption|]); constructor|].
      split; [discriminate|reflexivity]. }
    destruct (symbol_value d) as [z|] eqn:Ed.
    + destruct (quanta pad r) as [t|] eqn:Er; [|discriminate].
      destruct (IH r t ltac:(cbn in Hn; lia) Er) as (letters & vs & fill & E1 & E2 & E3).
      exists (a :: b1 :: c :: d :: letters), (w :: x :: y :: z :: vs), fill.
      split; [cbn; now rewrite E1|]. split; [repeat (apply Forall2_cons; [assumption|]); exact E2|]. cbn [length]. now apply filled_four.
    + destruct (pad && Ascii.eqb d "=") eqn:Ep; [|discriminate]. apply andb_true_iff in Ep as [-> Ep]. apply Ascii.eqb_eq in Ep. subst d.
      destruct r; [|discriminate]. exists [a; b1; c], [w; x; y], ["="%char]. split; [reflexivity|].
      split; [repeat (apply Forall2_cons; [assumption|]); constructor|]. split; [discriminate|]. split; [right; now left|reflexivity].
  - destruct (pad && Ascii.eqb c "=") eqn:Ep; [|discriminate]. apply andb_true_iff in Ep as [-> Ep]. apply Ascii.eqb_eq in Ep. subst c.
    destruct r as [|d [|? ?]]; [discriminate| |discriminate]. destruct (Ascii.eqb_spec d "="); [|discriminate]. subst d.
    exists [a; b1], [w; x], ["="%char; "="%char]. split; [reflexivity|].
    split; [repeat (apply Forall2_cons; [assumption|]); constructor|]. split; [discriminate|]. split; [right; right; now left|reflexivity].
Qed.

Lemma line_break_is a : line_break a = breaks_line a.
Proof.
  assert (T : all_below 256 (fun n => Bool.eqb (line_break (ascii_of_N n)) (breaks_line (ascii_of_N n))) = true) by (vm_compute; reflexivity).
  pose proof (all_below_spec _ _ T (N_of_ascii a) (byte_bound a)) as K. cbn beta in K. rewrite ascii_N_embedding in K. now apply Bool.eqb_prop.
Qed.
Lemma visible_breaks s : list_ascii_of_string (no_breaks s) = visible s.
Proof.
  unfold visible. induction s as [|a s IH]; [reflexivity|]. cbn [no_breaks list_ascii_of_string filter]. rewrite line_break_is.
  destruct (breaks_line a); cbn [negb list_ascii_of_string]; now rewrite IH.
Qed.

Lemma six_length vs : length (concat (map six vs)) = (6 * length vs)%nat.
Proof. induction vs as [|v vs IH]; [reflexivity|]. cbn [map concat length]. rewrite app_length, IH. cbn [six map length]. lia. Qed.
Lemma bytes_length l : length (concat (map byte_bits l)) = (8 * length l)%nat.
Proof. induction l as [|[] l IH]; [reflexivity|]. cbn [map concat length]. rewrite app_length, IH. cbn [byte_bits length]. lia. Qed.

Lemma letters_valued letters bits : Forall2 letter letters bits <-> exists vs, Forall2 valued letters vs /\ bits = map six vs.
Proof.
  split.
  - intros H. induction H as [|a b letters bits H _ (vs & F & ->)]; [exists []; split; constructor|].
    apply letter_value in H as (v & E & ->). exists (v :: vs). split; [now constructor|reflexivity].
  - intros (vs & F & ->). induction F as [|a v letters vs H _ IH]; [constructor|]. cbn [map]. constructor; [|exact IH]. apply letter_value. now exists v.
Qed.
Lemma valued_length letters vs : Forall2 valued letters vs -> length letters = length vs.
Proof. induction 1; cbn; congruence. Qed.

Lemma unbase64_means pad s b : unbase64 pad s = Some b <-> means64 pad s b.
Proof.
  unfold unbase64. split.
  - intros E. destruct (quanta_shape pad _ _ b (Nat.le_refl _) E) as (letters & vs & fill & E1 & HV & HF).
    rewrite visible_breaks in E1.
    assert (Q : quanta pad (no_breaks s) = Some (string_of_list_ascii (eights (concat (map six vs))))).
    { rewrite <- (quanta_reads pad (length letters) letters vs fill (Nat.le_refl _) HV HF), <- E1, <- visible_breaks. now rewrite string_of_list_ascii_of_string. }
    rewrite E in Q. injection Q as ->.
    destruct (eights_back _ (concat (map six vs)) (Nat.le_refl _)) as (spare & Es & Hs).
    exists spare, letters, (map six vs), fill. split; [exact E1|]. split; [apply letters_valued; eauto|].
    rewrite list_ascii_of_string_of_list_ascii. split; [exact Es|]. split.
    + apply (f_equal (@length bool)) in Es. rewrite app_length, six_length, bytes_length in Es.
      apply valued_length in HV. rewrite HV in HF. destruct HF as [HF _].
      assert (K : (length vs = 4 * (length vs / 4) + length vs mod 4)%nat) by (apply Nat.div_mod; lia).
      pose proof (Nat.mod_upper_bound (length vs) 4 ltac:(lia)). lia.
    + destruct HF as [_ HF]. destruct pad; [|exact HF]. now rewrite app_length.
  - intros (spare & letters & bits & fill & E1 & HL & Es & Hs & HF). apply letters_valued in HL as (vs & HV & ->).
    pose proof (valued_length _ _ HV) as Hl.
    rewrite <- (string_of_list_ascii_of_string (no_breaks s)), visible_breaks, E1.
    rewrite (quanta_reads pad (length letters) letters vs fill (Nat.le_refl _) HV).
    + rewrite Es, eights_bits by lia. now rewrite string_of_list_ascii_of_string.
    + split; [|destruct pad; [rewrite app_length in HF|]; exact HF].
      apply (f_equal (@length bool)) in Es. rewrite app_length, six_length, bytes_length in Es. rewrite Hl.
      assert (K : (length vs = 4 * (length vs / 4) + length vs mod 4)%nat) by (apply Nat.div_mod; lia).
      intros M. rewrite M in K. lia.
Qed.

(** * The encoder *)

Fixpoint values (s : string) : list N :=
  match s with
  | EmptyString => []
  | String a EmptyString => let n := N_of_ascii a * 65536 in [n / 262144; n / 4096 mod 64]
  | String a (String b EmptyString) => let n := N_of_ascii a * 65536 + N_of_ascii b * 256 in [n / 262144; n / 4096 mod 64; n / 64 mod 64]
  | String a (String b (String c r)) =>
      let n := three a b c in n / 262144 :: n / 4096 mod 64 :: n / 64 mod 64 :: n mod 64 :: values r
  end.

Lemma values_written pad s : exists fill, list_ascii_of_string (base64 pad s) = map symbol (values s) ++ fill /\ filled pad (length (values s)) fill.
Proof.
  induction s as [|a|a b|a b c r (fill & E & F)] using three_ind.
  - exists []. split; [reflexivity|]. split; [discriminate|]. destruct pad; [split; [now left|reflexivity]|reflexivity].
  - exists (if pad then ["="; "="]%char else []). split; [destruct pad; reflexivity|]. split; [discriminate|]. destruct pad; [split; [right; right; now left|reflexivity]|reflexivity].
  - exists (if pad then ["="]%char else []). split; [destruct pad; reflexivity|]. split; [discriminate|]. destruct pad; [split; [right; now left|reflexivity]|reflexivity].
  - exists fill. split.
    + cbn [base64 values map]. unfold quad. cbn [append list_ascii_of_string app]. now rewrite E.
    + cbn [values length]. now apply filled_four.
Qed.

Lemma tail1 a : skipn 2 (six (N_of_ascii a * 65536 / 4096 mod 64)) = [false; false; false; false].
Proof.
  apply same_bits_eq. apply (all_below_spec 256 (fun n => same_bits (skipn 2 (six (n * 65536 / 4096 mod 64))) [false; false; false; false])); [vm_compute; reflexivity|apply byte_bound].
Qed.
Lemma tail2 a b : skipn 4 (six ((N_of_ascii a * 65536 + N_of_ascii b * 256) / 64 mod 64)) = [false; false].
Proof.
  replace ((N_of_ascii a * 65536 + N_of_ascii b * 256) / 64 mod 64) with (N_of_ascii b * 4 mod 64) by lia.
  apply same_bits_eq. apply (all_below_spec 256 (fun n => same_bits (skipn 4 (six (n * 4 mod 64))) [false; false])); [vm_compute; reflexivity|apply byte_bound].
Qed.

Lemma values_bits s : Forall (fun v => v < 64) (values s) /\
  exists k, (k < 6)%nat /\ concat (map six (values s)) = concat (map byte_bits (list_ascii_of_string s)) ++ repeat false k.
Proof.
  induction s as [|a|a b|a b c r (F & k & Hk & E)] using three_ind.
  - split; [constructor|]. exists 0%nat. split; [lia|reflexivity].
  - cbn [values]. pose proof (byte_bound a). destruct (sextets (N_of_ascii a * 65536) ltac:(lia)) as (B1 & B2 & _).
    split; [repeat constructor; assumption|]. exists 4%nat. split; [lia|].
    cbn [map concat list_ascii_of_string]. rewrite !app_nil_r. rewrite (six_two (_ mod 64)), (app_assoc (six _)), tail1. f_equal.
    rewrite <- first_byte by assumption. rewrite twelve. f_equal. apply byte_is. lia.
  - cbn [values]. pose proof (byte_bound a). pose proof (byte_bound b).
    destruct (sextets (N_of_ascii a * 65536 + N_of_ascii b * 256) ltac:(lia)) as (B1 & B2 & B3 & _).
    split; [repeat constructor; assumption|]. exists 2%nat. split; [lia|].
    cbn [map concat list_ascii_of_string]. rewrite !app_nil_r. rewrite (six_two (_ / 4096 mod 64)), (six_four (_ / 64 mod 64)), tail2.
    rewrite <- !app_assoc. rewrite (app_assoc (six _)), <- first_byte by assumption.
    rewrite (app_assoc (skipn 2 _)), <- second_byte by assumption. rewrite twelve.
    f_equal; [f_equal; apply byte_is; lia|]. f_equal. f_equal. apply byte_is. lia.
  - cbn [values]. pose proof (byte_bound a). pose proof (byte_bound b). pose proof (byte_bound c). unfold three.
    destruct (sextets (N_of_ascii a * 65536 + N_of_ascii b * 256 + N_of_ascii c) ltac:(lia)) as (B1 & B2 & B3 & B4 & _).
    split; [repeat (constructor; [assumption|]); exact F|]. exists k. split; [exact Hk|].
    cbn [map concat list_ascii_of_string]. rewrite E. rewrite (six_two (_ / 4096 mod 64)), (six_four (_ / 64 mod 64)).
    rewrite <- !app_assoc. rewrite (app_assoc (six _)), <- first_byte by assumption.
    rewrite (app_assoc (skipn 2 _)), <- second_byte by assumption. rewrite (app_assoc (skipn 4 _)), <- third_byte by assumption. rewrite twelve.
    f_equal; [f_equal; apply byte_is; lia|]. f_equal; [f_equal; apply byte_is; lia|]. f_equal. f_equal. apply byte_is. lia.
Qed.

Lemma base64_means pad s : exists k, means64_with pad (base64 pad s) s (repeat false k) /\ visible (base64 pad s) = list_ascii_of_string (base64 pad s).
Proof.
  destruct (values_bits s) as (F & k & Hk & E). destruct (values_written pad s) as (fill & Ef & HF).
  assert (V : visible (base64 pad s) = list_ascii_of_string (base64 pad s)) by now rewrite <- visible_breaks, breaks_base64.
  assert (HV : Forall2 valued (map symbol (values s)) (values s)).
  { clear - F. induction F as [|v l H _ IH]; cbn [map]; constructor; [|exact IH]. now apply symbol_back. }
  exists k. split; [|exact V]. exists (map symbol (values s)), (map six (values s)), fill. split; [now rewrite V|].
  split; [apply letters_valued; eauto|]. split; [exact E|]. split; [now rewrite repeat_length|].
  destruct HF as [_ HF]. destruct pad; [|exact HF]. now rewrite app_length, map_length.
Qed.

Lemma letter_inj a b bits : letter a bits -> letter b bits -> a = b.
Proof.
  intros (i & Hi & ->) (j & Hj & E).
  assert (Q : forall i (c : ascii), String.get i alphabet = Some c -> (i < 64)%nat).
  { intros k c H. destruct (Nat.lt_ge_cases k 64) as [|L]; [assumption|]. exfalso.
    assert (String.length alphabet <= k)%nat as L2 by (cbn; lia). clear - H L2. revert k H L2.
    induction alphabet as [|d s IH]; intros k H L2; [discriminate|]. destruct k; cbn in *; [lia|]. apply (IH k H). lia. }
  assert (T : forallb (fun i => forallb (fun j => negb (same_bits (map (Nat.testbit i) [5; 4; 3; 2; 1; 0]%nat) (map (Nat.testbit j) [5; 4; 3; 2; 1; 0]%nat)) || Nat.eqb i j) (seq 0 64)) (seq 0 64) = true)
    by (vm_compute; reflexivity).
  rewrite forallb_forall in T. specialize (T i ltac:(apply in_seq; pose proof (Q _ _ Hi); lia)). cbn beta in T.
  rewrite forallb_forall in T. specialize (T j ltac:(apply in_seq; pose proof (Q _ _ Hj); lia)). cbn beta in T.
  rewrite E in T. unfold same_bits in T. destruct (list_eq_dec _ _ _) as [|n]; [|now destruct n]. cbn [negb orb] in T.
  apply Nat.eqb_eq in T. subst j. congruence.
Qed.

(** Only one text without line breaks has no bit left over but zeros. *)
Lemma base64_only pad text bytes k : means64_with pad text bytes (repeat false k) -> visible text = list_ascii_of_string text ->
  text = base64 pad bytes.
Proof.
  intros (l1 & b1 & f1 & E1 & L1 & C1 & S1 & F1) V1.
  destruct (base64_means pad bytes) as (k2 & (l2 & b2 & f2 & E2 & L2 & C2 & S2 & F2) & V2).
  rewrite repeat_length in S1, S2.
  assert (Len : forall ls bs, Forall2 letter ls bs -> length (concat bs) = (6 * length ls)%nat).
  { intros ls bs H. induction H as [|a b ls bs (i & _ & ->) _ IH]; [reflexivity|]. cbn [concat length]. rewrite app_length, IH. cbn [map length]. lia. }
  assert (Ek : k = k2).
  { pose proof (Len _ _ L1) as N1. pose proof (Len _ _ L2) as N2. rewrite C1, app_length, repeat_length, bytes_length in N1.
    rewrite C2, app_length, repeat_length, bytes_length in N2. lia. }
  subst k2. rewrite <- C2 in C1. clear C2.
  assert (El : l1 = l2 /\ length l1 = length l2).
  { clear - L1 L2 C1. revert l2 b2 L2 C1. induction L1 as [|a b l1 b1 H _ IH]; intros l2 b2 L2 C1.
    - destruct L2 as [|a' b' l2 b2 (i & _ & ->) _]; [auto|]. discriminate C1.
    - destruct L2 as [|a' b' l2 b2 H' L2]; [destruct H as (i & _ & ->); discriminate C1|].
      assert (Eb : b = b' /\ concat b1 = concat b2).
      { destruct H as (i & _ & ->), H' as (j & _ & ->). cbn [concat map app] in C1. injection C1. intros. split; [|assumption]. cbn [map]. congruence. }
      destruct Eb as [-> Eb]. destruct (IH l2 b2 L2 Eb) as [-> _]. rewrite (letter_inj a a' b' H H'). auto. }
  destruct El as [-> _].
  assert (Ef : f1 = f2).
  { destruct pad; [|congruence]. destruct F1 as [I1 M1], F2 as [I2 M2]. rewrite app_length in M1, M2.
    assert (K : forall n x y, ((n + x) mod 4 = 0 -> (n + y) mod 4 = 0 -> x <= 2 -> y <= 2 -> x = y)%nat).
    { intros n x y H1 H2 Hx Hy. apply Nat.mod_divides in H1 as (p & Hp); [|lia]. apply Nat.mod_divides in H2 as (q & Hq); [|lia]. lia. }
    assert (length f1 = length f2) as EL.
    { apply (K (length l2)); [exact M1|exact M2| |]; [destruct I1 as [<-|[<-|[<-|[]]]]|destruct I2 as [<-|[<-|[<-|[]]]]]; cbn; lia. }
    destruct I1 as [<-|[<-|[<-|[]]]], I2 as [<-|[<-|[<-|[]]]]; try discriminate EL; reflexivity. }
  subst f2. rewrite V1 in E1. rewrite V2 in E2. rewrite <- (string_of_list_ascii_of_string text), E1, <- E2. apply string_of_list_ascii_of_string.
Qed.
