(** The MessagePack grammar is unambiguous, and the encoder follows it. *)
From Coq Require Import ZArith Permutation.
From Verif Require Import Base Text Json JsonSpec Msgpack MsgpackSpec MsgpackProofs MsgpackGrammar.
Open Scope string_scope.
Open Scope N_scope.

(** * One reading only *)

Definition wide (k : nat) (f : string -> opening) (r : string) : option (opening * string) :=
  match take k r with Some (x, r') => Some (f x, r') | None => None end.
Definition head_at (s : string) : option (opening * string) :=
  match s with
  | EmptyString => None
  | String c r =>
      let n := N_of_ascii c in
      if n <? 128 then Some (Done (OInt (Z.of_N n)), r)
      else if n <? 144 then Some (Members (n - 128), r)
      else if n <? 160 then Some (Items (n - 144), r)
      else if n <? 192 then Some (Text (n - 160), r)
      else if 224 <=? n then Some (Done (OInt (Z.of_N n - 256)), r)
      else if n =? 192 then Some (Done ONil, r)
      else if n =? 194 then Some (Done (OBool false), r)
      else if n =? 195 then Some (Done (OBool true), r)
      else if n =? 196 then wide 1 (fun x => Bin (unsigned x)) r
      else if n =? 197 then wide 2 (fun x => Bin (unsigned x)) r
      else if n =? 198 then wide 4 (fun x => Bin (unsigned x)) r
      else if n =? 202 then wide 4 (fun x => Done (OSingle (unsigned x))) r
      else if n =? 203 then wide 8 (fun x => Done (ODouble (unsigned x))) r
      else if n =? 204 then wide 1 (fun x => Done (OInt (Z.of_N (unsigned x)))) r
      else if n =? 205 then wide 2 (fun x => Done (OInt (Z.of_N (unsigned x)))) r
      else if n =? 206 then wide 4 (fun x => Done (OInt (Z.of_N (unsigned x)))) r
      else if n =? 207 then wide 8 (fun x => Done (OInt (Z.of_N (unsigned x)))) r
      else if n =? 208 then wide 1 (fun x => Done (OInt (signed x))) r
      else if n =? 209 then wide 2 (fun x => Done (OInt (signed x))) r
      else if n =? 210 then wide 4 (fun x => Done (OInt (signed x))) r
      else if n =? 211 then wide 8 (fun x => Done (OInt (signed x))) r
      else if n =? 217 then wide 1 (fun x => Text (unsigned x)) r
      else if n =? 218 then wide 2 (fun x => Text (unsigned x)) r
      else if n =? 219 then wide 4 (fun x => Text (unsigned x)) r
      else if n =? 220 then wide 2 (fun x => Items (unsigned x)) r
      else if n =? 221 then wide 4 (fun x => Items (unsigned x)) r
      else if n =? 222 then wide 2 (fun x => Members (unsigned x)) r
      else if n =? 223 then wide 4 (fun x => Members (unsigned x)) r
      else None
  end.

Lemma wide_app k f s r : String.length s = k -> wide k f (s ++ r) = Some (f s, r).
Proof. intros <-. unfold wide. now rewrite take_app. Qed.

Lemma opens_head h t : opens h t -> forall r, head_at (t ++ r) = Some (h, r).
Proof.
  intros H r. destruct H as [| | |c H|c H|c s H|c s H|s H|s H|c H|c s H|c s H|c H|c s H|c H|c s H]; cbn [append]; try reflexivity.
  - unfold head_at. destruct (N.ltb_spec (N_of_ascii c) 128); [reflexivity|lia].
  - unfold head_at. destruct (N.ltb_spec (N_of_ascii c) 128); [lia|]. destruct (N.ltb_spec (N_of_ascii c) 144); [lia|].
    destruct (N.ltb_spec (N_of_ascii c) 160); [lia|]. destruct (N.ltb_spec (N_of_ascii c) 192); [lia|]. destruct (N.leb_spec 224 (N_of_ascii c)); [reflexivity|lia].
  - cbn [In] in H. destruct H as [H|[H|[H|[H|[]]]]]; injection H as <- E; symmetry in E; exact (wide_app _ (fun x => Done (OInt (Z.of_N (unsigned x)))) s r E).
  - cbn [In] in H. destruct H as [H|[H|[H|[H|[]]]]]; injection H as <- E; symmetry in E; exact (wide_app _ (fun x => Done (OInt (signed x))) s r E).
  - exact (wide_app _ (fun x => Done (OSingle (unsigned x))) s r H).
  - exact (wide_app _ (fun x => Done (ODouble (unsigned x))) s r H).
  - unfold head_at. destruct (N.ltb_spec (N_of_ascii c) 128); [lia|]. destruct (N.ltb_spec (N_of_ascii c) 144); [lia|].
    destruct (N.ltb_spec (N_of_ascii c) 160); [lia|]. destruct (N.ltb_spec (N_of_ascii c) 192); [reflexivity|lia].
  - cbn [In] in H. destruct H as [H|[H|[H|[]]]]; injection H as <- E; symmetry in E; exact (wide_app _ (fun x => Text (unsigned x)) s r E).
  - cbn [In] in H. destruct H as [H|[H|[H|[]]]]; injection H as <- E; symmetry in E; exact (wide_app _ (fun x => Bin (unsigned x)) s r E).
  - unfold head_at. destruct (N.ltb_spec (N_of_ascii c) 128); [lia|]. destruct (N.ltb_spec (N_of_ascii c) 144); [lia|].
    destruct (N.ltb_spec (N_of_ascii c) 160); [reflexivity|lia].
  - cbn [In] in H. destruct H as [H|[H|[]]]; injection H as <- E; symmetry in E; exact (wide_app _ (fun x => Items (unsigned x)) s r E).
  - unfold head_at. destruct (N.ltb_spec (N_of_ascii c) 128); [lia|]. destruct (N.ltb_spec (N_of_ascii c) 144); [reflexivity|lia].
  - cbn [In] in H. destruct H as [H|[H|[]]]; injection H as <- E; symmetry in E; exact (wide_app _ (fun x => Members (unsigned x)) s r E).
Qed.

Lemma heads h t r h' t' r' : opens h t -> opens h' t' -> t ++ r = t' ++ r' -> h = h' /\ r = r'.
Proof.
  intros H H' E. pose proof (opens_head h t H r) as A. rewrite E, (opens_head h' t' H' r') in A. injection A as -> ->. auto.
Qed.

Lemma str_app_inv a : forall b r r', String.length a = String.length b -> a ++ r = b ++ r' -> a = b /\ r = r'.
Proof.
  induction a as [|x a IH]; intros [|y b] r r' L E; try discriminate L; cbn in *; [auto|].
  injection L as L. injection E as -> E. destruct (IH _ _ _ L E) as [-> ->]. auto.
Qed.
Lemma str_app_assoc a b c : (a ++ b) ++ c = a ++ b ++ c.
Proof. induction a as [|x a IH]; cbn; [reflexivity|now rewrite IH]. Qed.

Scheme spells_mind := Induction for spells Sort Prop
  with sequence_mind := Induction for sequence Sort Prop
  with members_mind := Induction for members Sort Prop.
Combined Scheme grammar_ind from spells_mind, sequence_mind, members_mind.

Lemma unique :
  (forall o t, spells o t -> forall o' t' r r', spells o' t' -> t ++ r = t' ++ r' -> o = o' /\ r = r')
  /\ (forall l u, sequence l u -> forall l' u' r r', sequence l' u' -> List.length l = List.length l' -> u ++ r = u' ++ r' -> l = l' /\ r = r')
  /\ (forall l u, members l u -> forall l' u' r r', members l' u' -> List.length l = List.length l' -> u ++ r = u' ++ r' -> l = l' /\ r = r').
Proof.
  apply grammar_ind.
  - intros o t H o' t' r r' H' E. inversion H' as [? ? K|s u K|s u K|l u v K K2|l u v K K2]; subst; rewrite ?str_app_assoc in E; destruct (heads _ _ _ _ _ _ H K E) as [A B]; try discriminate A.
    injection A as ->. auto.
  - intros s t H o' t' r r' H' E. rewrite str_app_assoc in E. inversion H' as [? ? K|s' u K|s' u K|l u v K K2|l u v K K2]; subst; rewrite ?str_app_assoc in E; destruct (heads _ _ _ _ _ _ H K E) as [A B]; try discriminate A.
    injection A as A. apply Nat2N.inj in A. destruct (str_app_inv _ _ _ _ A B) as [-> ->]. auto.
  - intros s t H o' t' r r' H' E. rewrite str_app_assoc in E. inversion H' as [? ? K|s' u K|s' u K|l u v K K2|l u v K K2]; subst; rewrite ?str_app_assoc in E; destruct (heads _ _ _ _ _ _ H K E) as [A B]; try discriminate A.
    injection A as A. apply Nat2N.inj in A. destruct (str_app_inv _ _ _ _ A B) as [-> ->]. auto.
  - intros l0 t u0 H _ IH o' t' r r' H' E. rewrite str_app_assoc in E. inversion H' as [? ? K|s' u K|s' u K|l u v K K2|l u v K K2]; subst; rewrite ?str_app_assoc in E; destruct (heads _ _ _ _ _ _ H K E) as [A B]; try discriminate A.
    injection A as A. apply Nat2N.inj in A. destruct (IH _ _ _ _ K2 A B) as [-> ->]. auto.
  - intros l0 t u0 H _ IH o' t' r r' H' E. rewrite str_app_assoc in E. inversion H' as [? ? K|s' u K|s' u K|l u v K K2|l u v K K2]; subst; rewrite ?str_app_assoc in E; destruct (heads _ _ _ _ _ _ H K E) as [A B]; try discriminate A.
    injection A as A. apply Nat2N.inj in A. destruct (IH _ _ _ _ K2 A B) as [-> ->]. auto.
  - intros l' u' r r' H' L E. destruct l'; [|discriminate L]. inversion H'; subst. auto.
  - intros o l t u _ IH1 _ IH2 l' u' r r' H' L E. destruct l' as [|o' l']; [discriminate L|]. inversion H' as [|? ? t2 u2 K1 K2]; subst. rewrite !str_app_assoc in E.
    destruct (IH1 _ _ _ _ K1 E) as [-> E2]. injection L as L. destruct (IH2 _ _ _ _ K2 L E2) as [-> ->]. auto.
  - intros l' u' r r' H' L E. destruct l'; [|discriminate L]. inversion H'; subst. auto.
  - intros k v l t1 t2 u _ IH1 _ IH2 _ IH3 l' u' r r' H' L E. destruct l' as [|[k' v'] l']; [discriminate L|]. inversion H' as [|? ? ? a1 a2 u2 K1 K2 K3]; subst. rewrite !str_app_assoc in E.
    destruct (IH1 _ _ _ _ K1 E) as [-> E2]. destruct (IH2 _ _ _ _ K2 E2) as [-> E3]. injection L as L. destruct (IH3 _ _ _ _ K3 L E3) as [-> ->]. auto.
Qed.

Lemma opens_nonempty h t : opens h t -> t <> "".
Proof. destruct 1; discriminate. Qed.
Lemma app_nonempty a b : a <> "" -> a ++ b <> "".
Proof. destruct a; [congruence|discriminate]. Qed.
Lemma spells_nonempty o t : spells o t -> t <> "".
Proof. destruct 1; try apply app_nonempty; eapply opens_nonempty; eassumption. Qed.

Lemma stream_prefix l u : sequence l u -> forall l' u' r, sequence l' u' -> u = u' ++ r -> exists rest, l = (l' ++ rest)%list /\ sequence rest r.
Proof.
  revert u. induction l as [|o l IH]; intros u H l' u' r H' E.
  - assert (E0 : u = "") by (now inversion H). rewrite E0 in E. destruct H' as [|o' l' t v K1 K2]; [exists []; cbn in E; subst r; split; [reflexivity|constructor]|]. exfalso. rewrite str_app_assoc in E. symmetry in E. revert E. apply app_nonempty. now apply spells_nonempty in K1.
  - inversion H as [|? ? t v K1 K2 E0 E1]. destruct H' as [|o' l' t' v' K1' K2']; [exists (o :: l); cbn in E; subst; auto|]. subst u. rewrite str_app_assoc in E1.
    destruct (proj1 unique _ _ K1 _ _ _ _ K1' E1) as [-> E2]. destruct (IH v K2 l' v' r K2' E2) as (rest & -> & Hr). exists rest. auto.
Qed.
Lemma stream_unique l u : sequence l u -> forall l', sequence l' u -> l = l'.
Proof.
  intros H l' H'. destruct (stream_prefix l u H l' u "" H') as (rest & -> & K); [clear; induction u as [|c u IH]; cbn; congruence|].
  inversion K as [|? ? t v K1 K2 E E2]; subst; [now rewrite app_nil_r|]. exfalso. revert E2. apply app_nonempty. now apply spells_nonempty in K1.
Qed.

(** * The encoder *)

Lemma unsigned_big k n : n < 256 ^ N.of_nat k -> unsigned (big_endian k n) = n.
Proof. exact (bytes_value k n). Qed.
Lemma signed_big z : (- 2 ^ 63 <= z < 2 ^ 63)%Z -> signed (big_endian 8 (to_u64 z)) = z.
Proof.
  intros H. destruct (u64_back z H) as [A B]. unfold signed. rewrite big_length, unsigned_big by exact A. exact B.
Qed.

Lemma byte_small n : n < 256 -> N_of_ascii (byte n) = n.
Proof. intros H. rewrite byte_value. now apply N.mod_small. Qed.

Lemma text_opens n : n < 2 ^ 32 -> opens (Text n) (put_length 160 32 (Some 217) 218 219 n).
Proof.
  intros H. unfold put_length. destruct (N.ltb_spec n 32).
  - replace n with (N_of_ascii (byte (160 + n)) - 160) at 1 by (rewrite byte_small; lia). apply op_text_short. rewrite byte_small; lia.
  - destruct (N.ltb_spec n 256); [|destruct (N.ltb_spec n 65536)].
    + rewrite <- (unsigned_big 1 n) at 1 by (cbn; lia). apply op_text. rewrite big_length. now left.
    + rewrite <- (unsigned_big 2 n) at 1 by (cbn; lia). apply op_text. rewrite big_length. right. now left.
    + rewrite <- (unsigned_big 4 n) at 1 by (cbn; lia). apply op_text. rewrite big_length. right. right. now left.
Qed.
Lemma items_opens n : n < 2 ^ 32 -> opens (Items n) (put_array_len n).
Proof.
  intros H. unfold put_array_len, put_length. destruct (N.ltb_spec n 16).
  - replace n with (N_of_ascii (byte (144 + n)) - 144) at 1 by (rewrite byte_small; lia). apply op_items_short. rewrite byte_small; lia.
  - destruct (N.ltb_spec n 65536).
    + rewrite <- (unsigned_big 2 n) at 1 by (cbn; lia). apply op_items. rewrite big_length. now left.
    + rewrite <- (unsigned_big 4 n) at 1 by (cbn; lia). apply op_items. rewrite big_length. right. now left.
Qed.
Lemma members_opens n : n < 2 ^ 32 -> opens (Members n) (put_map_len n).
Proof.
  intros H. unfold put_map_len, put_length. destruct (N.ltb_spec n 16).
  - replace n with (N_of_ascii (byte (128 + n)) - 128) at 1 by (rewrite byte_small; lia). apply op_members_short. rewrite byte_small; lia.
  - destruct (N.ltb_spec n 65536).
    + rewrite <- (unsigned_big 2 n) at 1 by (cbn; lia). apply op_members. rewrite big_length. now left.
    + rewrite <- (unsigned_big 4 n) at 1 by (cbn; lia). apply op_members. rewrite big_length. right. now left.
Qed.
Lemma string_spells s : N.of_nat (String.length s) < 2 ^ 32 -> spells (OText s) (put_string s).
Proof. intros H. apply sp_text. now apply text_opens. Qed.
Lemma uint_spells n : n < 2 ^ 64 -> spells (OInt (Z.of_N n)) (put_uint n).
Proof.
  intros H. apply sp_done. unfold put_uint. rewrite <- (unsigned_big 8 n) at 1 by exact H. apply op_uint. rewrite big_length. right. right. right. now left.
Qed.
Lemma int_spells z : (- 2 ^ 63 <= z < 2 ^ 63)%Z -> spells (OInt z) (put_int z).
Proof.
  intros H. apply sp_done. unfold put_int. rewrite <- (signed_big z) at 1 by exact H. apply op_int. rewrite big_length. right. right. right. now left.
Qed.
Lemma float_spells n : n < 2 ^ 64 -> spells (ODouble n) (put_float n).
Proof. intros H. apply sp_done. unfold put_float. rewrite <- (unsigned_big 8 n) at 1 by exact H. apply op_double. apply big_length. Qed.

Lemma choose {A B} (R : A -> B -> Prop) l : (forall x, In x l -> exists o, R x o) -> exists os, Forall2 R l os.
Proof.
  induction l as [|x l IH]; intros H; [exists []; constructor|]. destruct (H x (or_introl eq_refl)) as (o & Ho).
  destruct IH as (os & Hos); [intros; apply H; now right|]. exists (o :: os). now constructor.
Qed.
Lemma f2_nth {A B} (R : A -> B -> Prop) l os : Forall2 R l os -> forall i x o, nth_error l i = Some x -> nth_error os i = Some o -> R x o.
Proof. induction 1 as [|x0 o0 l os H _ IH]; intros [|i] x o E1 E2; cbn in *; try discriminate; [congruence|eauto]. Qed.
Lemma f2_len {A B} (R : A -> B -> Prop) l os : Forall2 R l os -> List.length l = List.length os.
Proof. induction 1; cbn; congruence. Qed.

Section Order.
Variable order : list string -> list string.
Hypothesis any : any_order order.

Lemma lookup_here {A B} (f : A -> B) (l : list (string * A)) p : NoDup (map fst l) -> In p l ->
  lookup (fst p) (map (fun q => (fst q, f (snd q))) l) = Some (f (snd p)).
Proof.
  unfold lookup. induction l as [|q l IH]; intros N H; [destruct H|]. cbn [map List.find fst snd] in *. apply NoDup_cons_iff in N as [N1 N2].
  destruct H as [->|H]; [now rewrite String.eqb_refl|]. destruct (String.eqb_spec (fst q) (fst p)) as [E|E]; [|now apply IH].
  exfalso. apply N1. rewrite E. now apply in_map.
Qed.

Lemma value_spells v : expressible v -> exists o, means v o /\ spells o (put_value order v).
Proof.
  induction 1 as [|b|z H|n H|n H|s H|s H|l H _ IH|l H Hn Hin _ IH].
  - exists ONil. split; [constructor|]. apply sp_done. constructor.
  - exists (OBool b). split; [constructor|]. apply sp_done. destruct b; constructor.
  - exists (OInt z). split; [constructor|]. now apply int_spells.
  - exists (OInt (Z.of_N n)). split; [constructor|]. now apply uint_spells.
  - exists (ODouble n). split; [constructor|]. now apply float_spells.
  - exists (OText s). split; [constructor|]. now apply string_spells.
  - exists (OText s). split; [constructor|]. now apply string_spells.
  - destruct (choose _ _ IH) as (os & F). exists (OArray os). split.
    + constructor; [now apply f2_len in F|]. intros i x o E1 E2. now apply (f2_nth _ _ _ F i).
    + cbn [put_value]. apply sp_array.
      * unfold count. rewrite (f2_len _ _ _ F) in H |- *. now apply items_opens.
      * clear - F. induction F as [|x o l os [_ H] _ IH]; cbn; [constructor|]. now constructor.
  - destruct (Permutation_map_inv fst l (Permutation_sym (any (map fst l)))) as (l' & E & P).
    assert (Hin' : forall p, In p l' -> In p l) by (intros p; apply Permutation_in; now apply Permutation_sym).
    destruct (choose (fun (p : string * mval) (q : obj * obj) => fst q = OText (fst p) /\ means (snd p) (snd q) /\ spells (fst q) (put_string (fst p)) /\ spells (snd q) (put_value order (snd p))) l') as (ps & F).
    { intros [k x] Hp. apply Hin' in Hp. destruct (IH k x Hp) as (o & M & S). exists (OText k, o). cbn. split; [reflexivity|]. split; [exact M|]. split; [|exact S].
      apply string_spells. now apply (Hin k x). }
    exists (OMap ps). split.
    + apply (me_map l l' ps P); [now apply f2_len in F|]. intros i k x p E1 E2. destruct (f2_nth _ _ _ F i _ _ E1 E2) as (A & B & _). auto.
    + cbn [put_value]. apply sp_map.
      * unfold count. assert (L : List.length l = List.length ps) by (rewrite (Permutation_length P); now apply f2_len in F). rewrite L in H |- *. now apply members_opens.
      * unfold entries. rewrite map_map. cbn [fst]. change (map (fun x : string * mval => fst x) l) with (map fst l). rewrite E. clear - F Hin' Hn. revert Hin'. induction F as [|p q l' ps (_ & _ & S1 & S2) _ IH]; intros Hin'; cbn [map fold_right]; [constructor|].
        rewrite (lookup_here (put_value order) l p Hn (Hin' p (or_introl eq_refl))). destruct q as [k v]. apply mb_more; [exact S1|exact S2|]. apply IH. intros p0 Hp. apply Hin'. now right.
Qed.

Lemma field_spells f : expressible_field f -> exists o, field_means f o /\ spells o (put_field order f).
Proof.
  destruct f as [s|z|n|b|v]; cbn [expressible_field field_means put_field]; intros H.
  - exists (OText s). split; [reflexivity|]. apply string_spells. now inversion H.
  - exists (OInt z). split; [reflexivity|]. apply int_spells. now inversion H.
  - exists (OInt (Z.of_N n)). split; [reflexivity|]. apply uint_spells. now inversion H.
  - exists (OBool b). split; [reflexivity|]. apply sp_done. destruct b; constructor.
  - now apply value_spells.
Qed.

Lemma struct_spells l : N.of_nat (List.length l) < 2 ^ 32 -> Forall (fun f => expressible (MStr (fst f)) /\ expressible_field (snd f)) l ->
  exists ps, Forall2 (fun f p => fst p = OText (fst f) /\ field_means (snd f) (snd p)) l ps /\ spells (OMap ps) (put_struct order l).
Proof.
  intros H F.
  destruct (choose (fun (f : string * mfield) (q : obj * obj) => (fst q = OText (fst f) /\ field_means (snd f) (snd q)) /\ spells (fst q) (put_string (fst f)) /\ spells (snd q) (put_field order (snd f))) l) as (ps & G).
  { intros [k f] Hf. rewrite Forall_forall in F. destruct (F _ Hf) as [A B]. cbn in A, B. destruct (field_spells f B) as (o & M & S). exists (OText k, o). cbn. split; [auto|]. split; [|exact S]. apply string_spells. now inversion A. }
  exists ps. split; [clear - G; induction G as [|x y l ps [A _] _ IH]; constructor; assumption|].
  unfold put_struct. apply sp_map.
  - unfold count. rewrite (f2_len _ _ _ G) in H |- *. now apply members_opens.
  - clear - G. induction G as [|f [k v] l ps (_ & S1 & S2) _ IH]; cbn [fold_right]; [constructor|]. now apply mb_more.
Qed.

Lemma record_spells e : expressible_record e -> exists h d, record_is e h d /\ exists t1 t2, put_record order e = t1 ++ t2 /\ spells h t1 /\ spells d t2.
Proof.
  intros (Hs & Hg & Hk & Ht & Hm & Hd).
  assert (Hf : Forall (fun f => expressible (MStr (fst f)) /\ expressible_field (snd f)) (header e)).
  { apply Forall_cons_iff in Hs as [S1 Hs]. apply Forall_cons_iff in Hs as [S2 Hs]. apply Forall_cons_iff in Hs as [S3 Hs]. apply Forall_cons_iff in Hs as [S4 Hs]. apply Forall_cons_iff in Hs as [S5 _].
    unfold header. repeat (apply Forall_cons; [split; [constructor; reflexivity|]; cbn [snd expressible_field]; try assumption; try (constructor; assumption); constructor|]). apply Forall_nil. }
  destruct (struct_spells (header e) eq_refl Hf) as (ps & F & S).
  assert (D : exists d, data_means (m_data e) d /\ spells d (put_payload order (m_data e))).
  { destruct (m_data e) as [v|l|v]; cbn [data_means put_payload].
    - now apply value_spells.
    - destruct Hd as [Hl Hd]. destruct (struct_spells l Hl Hd) as (qs & F2 & S2). exists (OMap qs). split; [eauto|exact S2].
    - exists (OMap []). split; [reflexivity|]. destruct (struct_spells [] eq_refl (Forall_nil _)) as (qs & F2 & S2). inversion F2; subst. exact S2. }
  destruct D as (d & D1 & D2). exists (OMap ps), d. split.
  - unfold header in F. repeat match goal with H : Forall2 _ (_ :: _) _ |- _ => let p := fresh "p" in let A := fresh "A" in let B := fresh "B" in inversion H as [|? [p ?] ? ? [A B] ?]; subst; clear H; cbn [fst snd field_means] in A, B; subst p end.
    match goal with H : Forall2 _ [] _ |- _ => inversion H; subst end. subst.
    match goal with H : means MNil ?x |- _ => inversion H; subst end. eexists. split; [eassumption|]. split; [exact D1|reflexivity].
  - exists (put_struct order (header e)), (put_payload order (m_data e)). auto.
Qed.

Lemma stream_spells es : Forall expressible_record es -> exists os, records_are es os /\ sequence os (fst (msgpack_write order (map MRec es))).
Proof.
  induction 1 as [|e es H _ IH]; [exists []; split; constructor|]. destruct IH as (os & R & S).
  destruct (record_spells e H) as (h & d & Hr & t1 & t2 & E & S1 & S2). exists (h :: d :: os)%list. split; [now constructor|].
  cbn [map msgpack_write]. destruct (msgpack_write order (map MRec es)) as [w x]. cbn [fst] in *. rewrite E, str_app_assoc. apply sq_more; [exact S1|]. now apply sq_more.
Qed.
End Order.
