(** The functions of Go's packages strings, strconv and net/url that the modelled
    code calls, on byte strings. *)
From Coq Require Import PeanoNat.
From Verif Require Import Base DecText.
Open Scope string_scope.
Open Scope N_scope.

(** The largest number a Go uint64 holds, plus one. *)
Definition two64 : N := 18446744073709551616.

(** strings.Contains(s, sub). *)
Fixpoint contains (sub s : string) : bool :=
  String.prefix sub s || match s with EmptyString => false | String _ rest => contains sub rest end.

(** strings.Split(s, sep) for a non-empty [sep]: the piece being collected is
    [cur]; [skip] bytes of a separator are still to be passed over. *)
Fixpoint split_from (sep : string) (skip : nat) (cur s : string) : list string :=
  match s with
  | EmptyString => [cur]
  | String a rest =>
      match skip with
      | S k => split_from sep k cur rest
      | O => if String.prefix sep s then cur :: split_from sep (String.length sep - 1) "" rest
             else split_from sep O (cur ++ String a "") rest
      end
  end.
Definition split_str (sep s : string) : list string := split_from sep O "" s.

(** strings.Join(l, sep). *)
Fixpoint join (sep : string) (l : list string) : string :=
  match l with
  | [] => ""
  | [x] => x
  | x :: rest => x ++ sep ++ join sep rest
  end.

(** The ASCII white space of unicode.IsSpace. *)
Definition space (a : ascii) : bool :=
  let n := N_of_ascii a in ((9 <=? n) && (n <=? 13)) || (n =? 32).

(** strings.Fields(s); [cur] is the field being collected. *)
Fixpoint fields_from (cur s : string) : list string :=
  match s with
  | EmptyString => match cur with EmptyString => [] | _ => [cur] end
  | String a rest =>
      if space a then match cur with EmptyString => fields_from "" rest | _ => cur :: fields_from "" rest end
      else fields_from (cur ++ String a "") rest
  end.
Definition fields (s : string) : list string := fields_from "" s.

(** strings.Trim(s, cutset). *)
Fixpoint in_set (a : ascii) (set : string) : bool :=
  match set with EmptyString => false | String b rest => Ascii.eqb a b || in_set a rest end.
Fixpoint trim_left (set s : string) : string :=
  match s with
  | EmptyString => EmptyString
  | String a rest => if in_set a set then trim_left set rest else s
  end.
Fixpoint trim_right (set s : string) : string :=
  match s with
  | EmptyString => EmptyString
  | String a rest =>
      match trim_right set rest with
      | EmptyString => if in_set a set then EmptyString else String a EmptyString
      | t => String a t
      end
  end.
Definition trim (set s : string) : string := trim_right set (trim_left set s).

(** strconv.ParseUint(s, 10, 64); [None] is any of its errors.  (Underscores are
    only allowed with base 0, signs never.) *)
Definition parse_uint (s : string) : option N :=
  match s with
  | EmptyString => None
  | _ => let '(v, rest) := digits 0 s in
         match rest with
         | EmptyString => if v <? two64 then Some v else None
         | _ => None
         end
  end.

(** net/url shouldEscape in mode encodeQueryComponent: everything except letters,
    digits and - _ . ~ is escaped. *)
Definition unreserved (a : ascii) : bool :=
  let n := N_of_ascii a in
  ((48 <=? n) && (n <=? 57)) || ((65 <=? n) && (n <=? 90)) || ((97 <=? n) && (n <=? 122))
  || (n =? 45) || (n =? 46) || (n =? 95) || (n =? 126).

(** upperhex, ishex/unhex *)
Definition hexdigit (n : N) : ascii := ascii_of_N (if n <? 10 then 48 + n else 55 + n).
Definition unhex (a : ascii) : option N :=
  let n := N_of_ascii a in
  if (48 <=? n) && (n <=? 57) then Some (n - 48)
  else if (65 <=? n) && (n <=? 70) then Some (n - 55)
  else if (97 <=? n) && (n <=? 102) then Some (n - 87)
  else None.

(** url.QueryEscape. *)
Fixpoint query_escape (s : string) : string :=
  match s with
  | EmptyString => EmptyString
  | String a rest =>
      if unreserved a then String a (query_escape rest)
      else if Ascii.eqb a " " then String "+" (query_escape rest)
      else String "%" (String (hexdigit (N_of_ascii a / 16)) (String (hexdigit (N_of_ascii a mod 16)) (query_escape rest)))
  end.

(** url.unescape; [plus]: '+' stands for a space (query components, not paths).
    [None] is EscapeError. *)
Fixpoint unescape (plus : bool) (s : string) : option string :=
  match s with
  | EmptyString => Some EmptyString
  | String a rest =>
      if Ascii.eqb a "%" then
        match rest with
        | String h (String l rest') =>
            match unhex h, unhex l with
            | Some x, Some y =>
                match unescape plus rest' with
                | Some t => Some (String (ascii_of_N (16 * x + y)) t)
                | None => None
                end
            | _, _ => None
            end
        | _ => None
        end
      else match unescape plus rest with
           | Some t => Some (String (if plus && Ascii.eqb a "+" then " "%char else a) t)
           | None => None
           end
  end.

(** strings.Cut at one byte: what is before and after its first occurrence. *)
Fixpoint cut_byte (c : ascii) (s : string) : string * option string :=
  match s with
  | EmptyString => (EmptyString, None)
  | String a rest =>
      if Ascii.eqb a c then (EmptyString, Some rest)
      else let '(x, y) := cut_byte c rest in (String a x, y)
  end.

(** * Facts *)

Lemma app_nil_s (s : string) : (s ++ "")%string = s.
Proof. induction s; cbn; congruence. Qed.
Lemma app_assoc_s (a b c : string) : ((a ++ b) ++ c = a ++ b ++ c)%string.
Proof. induction a; cbn; congruence. Qed.
Lemma app_length_s (a b : string) : String.length (a ++ b) = (String.length a + String.length b)%nat.
Proof. induction a as [|c a IH]; [reflexivity|]. cbn [append String.length plus]. now rewrite IH. Qed.
Lemma app_inv_s (a b c : string) : (a ++ b = a ++ c)%string -> b = c.
Proof. induction a as [|x a IH]; cbn; [auto|]. intros H. injection H. exact IH. Qed.

Lemma prefix_app (p s : string) : String.prefix p (p ++ s) = true.
Proof. induction p as [|c p IH]; cbn; [now destruct s|]. destruct (ascii_dec c c); congruence. Qed.
Lemma prefix_split (p s : string) : String.prefix p s = true -> exists t, s = (p ++ t)%string.
Proof.
  revert s. induction p as [|c p IH]; intros s H; [now exists s|].
  destruct s as [|a s]; [discriminate|]. cbn in H. destruct (ascii_dec c a) as [E|]; [subst a|discriminate].
  destruct (IH s H) as (t & Ht). subst s. now exists t.
Qed.

Lemma contains_spec sub s : contains sub s = true <-> exists x y, s = (x ++ sub ++ y)%string.
Proof.
  induction s as [|a s IH]; cbn [contains].
  - rewrite orb_false_r. split.
    + intros H. destruct (prefix_split _ _ H) as (t & E). now exists "", t.
    + intros (x & y & E). destruct x; [|discriminate]. cbn in E. rewrite E. apply prefix_app.
  - rewrite orb_true_iff, IH. split.
    + intros [H|(x & y & E)].
      * destruct (prefix_split _ _ H) as (t & E). now exists "", t.
      * exists (String a x), y. cbn. congruence.
    + intros (x & y & E). destruct x as [|b x].
      * left. cbn in E. rewrite E. apply prefix_app.
      * right. cbn in E. injection E as <- E. eauto.
Qed.
Lemma contains_app sub x y : contains sub (x ++ sub ++ y) = true.
Proof. apply contains_spec. eauto. Qed.

(** A byte that does not occur. *)
Fixpoint lacks (c : ascii) (s : string) : bool :=
  match s with EmptyString => true | String a rest => negb (Ascii.eqb a c) && lacks c rest end.
Lemma lacks_app c x y : lacks c (x ++ y) = lacks c x && lacks c y.
Proof. induction x; cbn; [reflexivity|]. now rewrite IHx, andb_assoc. Qed.
Lemma lacks_contains c sub s : lacks c s = true -> lacks c sub = false -> contains sub s = false.
Proof.
  intros H1 H2. destruct (contains sub s) eqn:E; auto. apply contains_spec in E as (x & y & ->).
  rewrite !lacks_app, H2, andb_false_r in H1. discriminate.
Qed.
Lemma lacks_digits c s : digit c = None -> all_digits s -> lacks c s = true.
Proof.
  intros Hc. induction s as [|a s IH]; cbn; [reflexivity|]. intros [Ha Hs]. rewrite IH by auto.
  destruct (Ascii.eqb_spec a c) as [->|]; [contradiction|reflexivity].
Qed.
Lemma lacks_dec c n : digit c = None -> lacks c (dec n) = true.
Proof. intros H. apply lacks_digits; [exact H|apply dec_all]. Qed.

Lemma parse_dec n : n < two64 -> parse_uint (dec n) = Some n.
Proof.
  intros H. unfold parse_uint. pose proof (digits_dec n "" ltac:(discriminate)) as E. rewrite app_nil_s in E.
  destruct (dec_head n) as (c & rest & Ed & _). rewrite E, Ed. apply N.ltb_lt in H. now rewrite H.
Qed.
Lemma parse_bound s n : parse_uint s = Some n -> n < two64.
Proof.
  unfold parse_uint. destruct s; [discriminate|]. destruct (digits 0 _) as [v r]. destruct r; [|discriminate].
  destruct (N.ltb_spec v two64); [|discriminate]. congruence.
Qed.

(** The text before a separator's first occurrence is the first piece. *)
Lemma split_before sep s : sep <> "" -> forall cur x,
  (forall p q, (x ++ sep = p ++ sep ++ q)%string -> q = "") ->
  split_from sep O cur (x ++ sep ++ s) = (cur ++ x)%string :: split_from sep O "" s.
Proof.
  intros Hne. assert (Hskip : forall t cur, split_from sep (String.length t) cur (t ++ s) = split_from sep O cur s).
  { induction t as [|b t IH]; intros cur; cbn [String.length append split_from]; [reflexivity|apply IH]. }
  intros cur x. revert cur. induction x as [|a x IH]; intros cur Hx.
  - cbn [append]. rewrite app_nil_s. destruct sep as [|b sep']; [congruence|]. cbn [append split_from].
    replace (String.prefix (String b sep') (String b (sep' ++ s))) with true
      by (symmetry; exact (prefix_app (String b sep') s)).
    cbn [String.length]. replace (S (String.length sep') - 1)%nat with (String.length sep') by lia.
    now rewrite Hskip.
  - cbn [append split_from].
    destruct (String.prefix sep (String a (x ++ sep ++ s))) eqn:E.
    + exfalso. destruct (prefix_split _ _ E) as (t & Et).
      (* the separator would occur at the very start of x ++ sep *)
      assert (Hlen : exists q, (String a x ++ sep = sep ++ q)%string /\ (0 < String.length q)%nat).
      { clear -Et Hne.
        assert (H : forall u v w z, (u ++ v = w ++ z)%string -> (String.length w <= String.length u)%nat -> exists q, u = (w ++ q)%string).
        { induction u as [|c u IHu]; intros v w z H Hl.
          - destruct w; [|cbn in Hl; lia]. now exists "".
          - destruct w as [|d w]; [now exists (String c u)|]. cbn in H, Hl. injection H as -> H.
            destruct (IHu _ _ _ H ltac:(lia)) as (q & ->). now exists q. }
        specialize (H (String a x ++ sep)%string s sep t).
        destruct H as (q & Eq).
        - cbn [append]. rewrite app_assoc_s. exact Et.
        - rewrite app_length_s. lia.
        - exists q. split; [exact Eq|]. apply (f_equal String.length) in Eq. rewrite !app_length_s in Eq. cbn in Eq. lia. }
      destruct Hlen as (q & Eq & Hl). specialize (Hx "" q Eq). subst q. cbn in Hl. lia.
    + rewrite IH.
      * now rewrite app_assoc_s.
      * intros p q Epq. apply (Hx (String a p) q). cbn. now rewrite Epq.
Qed.

Lemma split_none sep s : contains sep s = false -> forall cur, split_from sep O cur s = [(cur ++ s)%string].
Proof.
  induction s as [|a s IH]; intros H cur.
  - cbn. now rewrite app_nil_s.
  - cbn [contains] in H. apply orb_false_iff in H as [H1 H2]. cbn [split_from]. rewrite H1, IH by exact H2.
    now rewrite app_assoc_s.
Qed.

(** Splitting at a byte undoes joining with it. *)
Lemma split_join_byte c l : l <> [] -> forallb (lacks c) l = true ->
  split_str (String c "") (join (String c "") l) = l.
Proof.
  unfold split_str. intros Hne. induction l as [|x l IH]; [congruence|]. clear Hne.
  cbn [forallb]. intros H. apply andb_true_iff in H as [Hx Hl].
  destruct l as [|y l].
  - cbn [join]. rewrite split_none; [reflexivity|]. apply (lacks_contains c); [exact Hx|]. cbn. now rewrite Ascii.eqb_refl.
  - change (join (String c "") (x :: y :: l)) with (x ++ String c "" ++ join (String c "") (y :: l))%string.
    rewrite split_before; [cbn [append]; f_equal; apply IH; congruence|discriminate|].
    intros p q E.
    assert (H : forall p x, lacks c x = true -> (x ++ String c "" = p ++ String c "" ++ q)%string -> q = "").
    { clear. induction p as [|d p IHp]; intros x Hx E.
      - destruct x as [|a x]; cbn in E; [congruence|]. injection E as -> _. cbn in Hx. rewrite Ascii.eqb_refl in Hx. discriminate.
      - destruct x as [|a x]; cbn in E.
        + injection E as _ E. destruct p; discriminate.
        + injection E as _ E. cbn in Hx. apply andb_true_iff in Hx as [_ Hx]. eapply IHp; eauto. }
    eapply H; eauto.
Qed.

(** Escaping and unescaping a query component. *)
Lemma unescape_escape s : unescape true (query_escape s) = Some s.
Proof.
  induction s as [|a s IH]; [reflexivity|].
  destruct a as [[] [] [] [] [] [] [] []]; cbn -[unescape query_escape]; cbn [query_escape];
    match goal with |- context [unreserved ?x] => let v := eval vm_compute in (unreserved x) in change (unreserved x) with v end;
    cbn iota;
    try (match goal with |- context [Ascii.eqb ?x " "] => let v := eval vm_compute in (Ascii.eqb x " ") in change (Ascii.eqb x " ") with v end; cbn iota);
    cbn [unescape];
    repeat match goal with |- context [Ascii.eqb ?x ?y] => let v := eval vm_compute in (Ascii.eqb x y) in change (Ascii.eqb x y) with v end;
    cbn iota; cbn [andb];
    repeat match goal with |- context [unhex ?x] => let v := eval vm_compute in (unhex x) in change (unhex x) with v end;
    cbn iota; rewrite IH; reflexivity.
Qed.

Lemma escape_lacks c s : c <> "%"%char -> c <> "+"%char -> unreserved c = false -> lacks c (query_escape s) = true.
Proof.
  intros H1 H2 H3.
  assert (Hhex : forall n, n < 16 -> Ascii.eqb (hexdigit n) c = false).
  { intros n Hn. destruct (Ascii.eqb_spec (hexdigit n) c) as [E|]; auto. exfalso. rewrite <- E in H3.
    assert (n = 0 \/ n = 1 \/ n = 2 \/ n = 3 \/ n = 4 \/ n = 5 \/ n = 6 \/ n = 7 \/ n = 8 \/ n = 9 \/ n = 10 \/ n = 11
            \/ n = 12 \/ n = 13 \/ n = 14 \/ n = 15) as Hcase by lia.
    repeat destruct Hcase as [->|Hcase]; try (vm_compute in H3; discriminate). subst n. vm_compute in H3. discriminate. }
  assert (Hb : forall a, N_of_ascii a < 256) by apply N_ascii_bounded.
  induction s as [|a s IH]; [reflexivity|]. cbn [query_escape].
  destruct (unreserved a) eqn:Ea.
  - cbn [lacks]. rewrite IH. destruct (Ascii.eqb_spec a c) as [->|]; [congruence|reflexivity].
  - destruct (Ascii.eqb a " "); cbn [lacks]; rewrite IH.
    + destruct (Ascii.eqb_spec "+"%char c); [congruence|reflexivity].
    + specialize (Hb a). rewrite !Hhex by (try apply N.div_lt_upper_bound; try apply N.mod_lt; lia).
      destruct (Ascii.eqb_spec "%"%char c); [congruence|reflexivity].
Qed.

Lemma cut_lacks c s rest : lacks c s = true -> cut_byte c (s ++ String c rest) = (s, Some rest).
Proof.
  induction s as [|a s IH]; cbn; intros H.
  - now rewrite Ascii.eqb_refl.
  - apply andb_true_iff in H as [H1 H2]. apply negb_true_iff in H1. now rewrite H1, IH.
Qed.
Lemma cut_none c s : lacks c s = true -> cut_byte c s = (s, None).
Proof.
  induction s as [|a s IH]; cbn; intros H; [reflexivity|].
  apply andb_true_iff in H as [H1 H2]. apply negb_true_iff in H1. now rewrite H1, IH.
Qed.
