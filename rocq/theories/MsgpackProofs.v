(** MessagePack record streams read back. *)
From Coq Require Import ZArith PeanoNat Permutation.
From Verif Require Import Base DecText Text Json JsonSpec JsonProofs Msgpack MsgpackSpec.
Open Scope string_scope.
Open Scope N_scope.

(** * Numbers *)

Lemma byte_value n : N_of_ascii (byte n) = n mod 256.
Proof. unfold byte. apply N_ascii_embedding. apply N.mod_lt. lia. Qed.

Lemma big_length k n : String.length (big_endian k n) = k.
Proof. induction k; cbn; [reflexivity|]. rewrite IHk. reflexivity. Qed.

Definition go_bytes := fix go (a : N) (s : string) : N := match s with EmptyString => a | String c r => go (a * 256 + N_of_ascii c) r end.

Lemma big_value k : forall n a, go_bytes a (big_endian k n) = a * 256 ^ N.of_nat k + n mod 256 ^ N.of_nat k.
Proof.
  induction k as [|k IH]; intros n a.
  - cbn. rewrite N.mod_1_r. lia.
  - cbn [big_endian go_bytes]. fold go_bytes. rewrite IH, byte_value.
    rewrite Nat2N.inj_succ, N.pow_succ_r by lia.
    set (m := 256 ^ N.of_nat k). assert (Hm : m <> 0) by (apply N.pow_nonzero; lia).
    rewrite (N.mul_comm 256 m), N.mod_mul_r by lia. ring.
Qed.

Lemma bytes_value k n : n < 256 ^ N.of_nat k -> value_of_bytes (big_endian k n) = n.
Proof. intros H. change (value_of_bytes (big_endian k n)) with (go_bytes 0 (big_endian k n)). rewrite big_value, N.mod_small by exact H. reflexivity. Qed.

Lemma take_app x t : take (String.length x) (x ++ t) = Some (x, t).
Proof. induction x as [|a x IH]; cbn; [reflexivity|]. rewrite IH. reflexivity. Qed.

Lemma size_app x t : size (x ++ t) = size x + size t.
Proof. unfold size. rewrite app_length_s. lia. Qed.

Lemma read_n_app x t : read_n (size x) (x ++ t) = Got x t.
Proof.
  unfold read_n. destruct (x ++ t) as [|a r] eqn:E.
  - destruct x; [|discriminate]. cbn in E. subst t. reflexivity.
  - rewrite <- E. replace (size (x ++ t) <? size x) with false by (symmetry; apply N.ltb_ge; rewrite size_app; lia).
    unfold size. rewrite Nat2N.id, take_app. reflexivity.
Qed.

Lemma read_big_back k n t : n < 256 ^ N.of_nat k -> read_big (N.of_nat k) (big_endian k n ++ t) = Got n t.
Proof.
  intros H. unfold read_big. replace (N.of_nat k) with (size (big_endian k n)) by (unfold size; rewrite big_length; reflexivity).
  rewrite read_n_app. cbn [then_read]. rewrite bytes_value by exact H. reflexivity.
Qed.
Lemma read_big1 n t : n < 256 -> read_big 1 (big_endian 1 n ++ t) = Got n t.
Proof. apply (read_big_back 1). Qed.
Lemma read_big2 n t : n < 65536 -> read_big 2 (big_endian 2 n ++ t) = Got n t.
Proof. apply (read_big_back 2). Qed.
Lemma read_big4 n t : n < 2 ^ 32 -> read_big 4 (big_endian 4 n ++ t) = Got n t.
Proof. apply (read_big_back 4). Qed.
Lemma read_big8 n t : n < 2 ^ 64 -> read_big 8 (big_endian 8 n ++ t) = Got n t.
Proof. apply (read_big_back 8). Qed.

Lemma u64_back z : (- 2 ^ 63 <= z < 2 ^ 63)%Z -> to_u64 z < 2 ^ 64 /\ of_u64 (to_u64 z) = z.
Proof.
  intros H. unfold to_u64, of_u64.
  assert (B : (0 <= z mod 2 ^ 64 < 2 ^ 64)%Z) by (apply Z.mod_pos_bound; lia).
  split. { apply N2Z.inj_lt. rewrite Z2N.id by lia. exact (proj2 B). }
  assert (V : (z mod 2 ^ 64 = if 0 <=? z then z else z + 2 ^ 64)%Z).
  { destruct (Z.leb_spec 0 z).
    - apply Z.mod_small. lia.
    - rewrite <- (Z.mod_add z 1 (2 ^ 64)) by lia. rewrite Z.mul_1_l. apply Z.mod_small. lia. }
  rewrite Z2N.id by lia. rewrite V in *. destruct (Z.leb_spec 0 z) as [L|L].
  - replace (Z.to_N z <? 2 ^ 63) with true; [reflexivity|]. symmetry. apply N.ltb_lt. apply N2Z.inj_lt.
    rewrite Z2N.id by lia. exact (proj2 H).
  - replace (Z.to_N (z + 2 ^ 64) <? 2 ^ 63) with false; [lia|]. symmetry. apply N.ltb_ge. apply N2Z.inj_le.
    rewrite Z2N.id by lia. change (Z.of_N (2 ^ 63)) with (2 ^ 63)%Z. lia.
Qed.

(** * Lengths and strings *)

Lemma in_range_spec lo hi c : in_range lo hi c = true <-> lo <= c <= hi.
Proof. unfold in_range. rewrite andb_true_iff, !N.leb_le. reflexivity. Qed.
Lemma in_range_out lo hi c : c < lo \/ hi < c -> in_range lo hi c = false.
Proof. intros H. apply not_true_iff_false. rewrite in_range_spec. lia. Qed.

(** The first byte of a length: one of a handful of codes. *)
Lemma string_len_back s t : fits s ->
  exists c r, put_string s ++ t = String c r /\ (160 <= N_of_ascii c <= 191 \/ 217 <= N_of_ascii c <= 219)
  /\ read_string_as (N_of_ascii c) r = Got s t.
Proof.
  unfold fits. intros H. unfold put_string, put_length.
  destruct (size s <? 32) eqn:E1; [apply N.ltb_lt in E1|apply N.ltb_ge in E1].
  { exists (byte (160 + size s)), (s ++ t). split; [reflexivity|]. rewrite byte_value, N.mod_small by lia. split; [lia|].
    unfold read_string_as. replace (160 + size s =? 192) with false by (symmetry; apply N.eqb_neq; lia).
    replace (in_range 160 191 (160 + size s)) with true by (symmetry; apply in_range_spec; lia).
    replace (160 + size s - 160) with (size s) by lia. apply read_n_app. }
  destruct (size s <? 256) eqn:E2; [apply N.ltb_lt in E2|apply N.ltb_ge in E2].
  { exists "217"%char, (big_endian 1 (size s) ++ s ++ t). split; [cbn [append]; rewrite !app_assoc_s; reflexivity|].
    change (N_of_ascii "217") with 217. split; [lia|].
    change (read_string_as 217 (big_endian 1 (size s) ++ s ++ t)) with (then_read (read_big 1 (big_endian 1 (size s) ++ s ++ t)) read_n).
    rewrite read_big1 by exact E2. apply read_n_app. }
  destruct (size s <? 65536) eqn:E3; [apply N.ltb_lt in E3|apply N.ltb_ge in E3].
  { exists "218"%char, (big_endian 2 (size s) ++ s ++ t). split; [cbn [append]; rewrite !app_assoc_s; reflexivity|].
    change (N_of_ascii "218") with 218. split; [lia|].
    change (read_string_as 218 (big_endian 2 (size s) ++ s ++ t)) with (then_read (read_big 2 (big_endian 2 (size s) ++ s ++ t)) read_n).
    rewrite read_big2 by exact E3. apply read_n_app. }
  { exists "219"%char, (big_endian 4 (size s) ++ s ++ t). split; [cbn [append]; rewrite !app_assoc_s; reflexivity|].
    change (N_of_ascii "219") with 219. split; [lia|].
    change (read_string_as 219 (big_endian 4 (size s) ++ s ++ t)) with (then_read (read_big 4 (big_endian 4 (size s) ++ s ++ t)) read_n).
    rewrite read_big4 by exact H. apply read_n_app. }
Qed.

Lemma string_back s t : fits s -> read_string (put_string s ++ t) = Got s t.
Proof. intros H. destruct (string_len_back s t H) as (c & r & -> & _ & E). exact E. Qed.

Lemma array_len_back n t : n < 2 ^ 32 ->
  exists c r, put_array_len n ++ t = String c r /\ (144 <= N_of_ascii c <= 159 \/ 220 <= N_of_ascii c <= 221)
  /\ read_array_len (N_of_ascii c) r = Got n t.
Proof.
  intros H. unfold put_array_len, put_length.
  destruct (n <? 16) eqn:E1; [apply N.ltb_lt in E1|apply N.ltb_ge in E1].
  { exists (byte (144 + n)), t. split; [reflexivity|]. rewrite byte_value, N.mod_small by lia. split; [lia|].
    unfold read_array_len. replace (in_range 144 159 (144 + n)) with true by (symmetry; apply in_range_spec; lia).
    replace (144 + n - 144) with n by lia. reflexivity. }
  destruct (n <? 65536) eqn:E3; [apply N.ltb_lt in E3|apply N.ltb_ge in E3].
  { exists "220"%char, (big_endian 2 n ++ t). split; [reflexivity|]. change (N_of_ascii "220") with 220. split; [lia|].
    apply read_big2. exact E3. }
  { exists "221"%char, (big_endian 4 n ++ t). split; [reflexivity|]. change (N_of_ascii "221") with 221. split; [lia|].
    apply read_big4. exact H. }
Qed.

Lemma map_len_back n t : n < 2 ^ 32 ->
  exists c r, put_map_len n ++ t = String c r /\ (128 <= N_of_ascii c <= 143 \/ 222 <= N_of_ascii c <= 223)
  /\ read_map_len (N_of_ascii c) r = Got n t.
Proof.
  intros H. unfold put_map_len, put_length.
  destruct (n <? 16) eqn:E1; [apply N.ltb_lt in E1|apply N.ltb_ge in E1].
  { exists (byte (128 + n)), t. split; [reflexivity|]. rewrite byte_value, N.mod_small by lia. split; [lia|].
    unfold read_map_len. replace (in_range 128 143 (128 + n)) with true by (symmetry; apply in_range_spec; lia).
    replace (128 + n - 128) with n by lia. reflexivity. }
  destruct (n <? 65536) eqn:E3; [apply N.ltb_lt in E3|apply N.ltb_ge in E3].
  { exists "222"%char, (big_endian 2 n ++ t). split; [reflexivity|]. change (N_of_ascii "222") with 222. split; [lia|].
    apply read_big2. exact E3. }
  { exists "223"%char, (big_endian 4 n ++ t). split; [reflexivity|]. change (N_of_ascii "223") with 223. split; [lia|].
    apply read_big4. exact H. }
Qed.

Lemma len_nonempty fc fm c8 c16 c32 n : (1 <= String.length (put_length fc fm c8 c16 c32 n))%nat.
Proof.
  unfold put_length. destruct (n <? fm); [cbn; lia|]. destruct c8.
  - destruct (n <? 256); [cbn; lia|]. destruct (n <? 65536); cbn; lia.
  - destruct (n <? 65536); cbn; lia.
Qed.
Lemma string_nonempty s : (1 <= String.length (put_string s))%nat.
Proof. unfold put_string. rewrite app_length_s. pose proof (len_nonempty 160 32 (Some 217) 218 219 (size s)). lia. Qed.

(** * Maps in any order *)

Lemma member_in {A} (l : list (string * A)) : keys_sorted l -> forall k x, last_member k l = Some x <-> In (k, x) l.
Proof.
  induction l as [|[k0 x0] l IH]; intros Hs k x; [cbn; split; [discriminate|contradiction]|].
  pose proof (sorted_tail _ _ _ Hs) as Ht. pose proof (sorted_below _ _ _ Hs) as Hb.
  cbn [last_member In]. specialize (IH Ht k). split.
  - destruct (last_member k l) as [y|] eqn:E.
    + intros [= ->]. right. apply IH. reflexivity.
    + destruct (String.eqb_spec k k0) as [->|]; [|discriminate]. intros [= ->]. left. reflexivity.
  - intros [E|Hi].
    + injection E as -> ->. rewrite last_member_none, String.eqb_refl; [reflexivity|].
      intros k' y Hy ->. specialize (Hb _ _ Hy). rewrite compare_refl in Hb. discriminate.
    + apply IH in Hi. rewrite Hi. reflexivity.
Qed.

Lemma sorted_ext {A} (l1 : list (string * A)) : forall l2, keys_sorted l1 -> keys_sorted l2 ->
  (forall k, last_member k l1 = last_member k l2) -> l1 = l2.
Proof.
  induction l1 as [|[k1 x1] l1 IH]; intros l2 H1 H2 He.
  - destruct l2 as [|[k x] l2]; [reflexivity|]. exfalso.
    assert (Hi : last_member k ((k, x) :: l2) = Some x) by (apply member_in; [exact H2|left; reflexivity]).
    rewrite <- He in Hi. discriminate.
  - destruct l2 as [|[k2 x2] l2].
    { exfalso. assert (Hi : last_member k1 ((k1, x1) :: l1) = Some x1) by (apply member_in; [exact H1|left; reflexivity]).
      rewrite He in Hi. discriminate. }
    pose proof (sorted_below _ _ _ H1) as B1. pose proof (sorted_below _ _ _ H2) as B2.
    assert (Hi : In (k1, x1) ((k2, x2) :: l2)).
    { apply (member_in _ H2). rewrite <- He. apply (member_in _ H1). left. reflexivity. }
    assert (Hj : In (k2, x2) ((k1, x1) :: l1)).
    { apply (member_in _ H1). rewrite He. apply (member_in _ H2). left. reflexivity. }
    assert (E : (k1, x1) = (k2, x2)).
    { destruct Hi as [E|Hi]; [congruence|]. destruct Hj as [E|Hj]; [congruence|].
      exfalso. pose proof (compare_trans _ _ _ (B1 _ _ Hj) (B2 _ _ Hi)) as C. rewrite compare_refl in C. discriminate. }
    injection E as <- <-. f_equal. apply IH; [eapply sorted_tail; exact H1|eapply sorted_tail; exact H2|].
    intros k. specialize (He k). cbn [last_member] in He.
    destruct (last_member k l1) as [y|] eqn:E1; destruct (last_member k l2) as [z|] eqn:E2; try congruence.
    + destruct (String.eqb_spec k k1) as [->|]; [|discriminate].
      exfalso. apply (member_in _ (sorted_tail _ _ _ H1)) in E1. specialize (B1 _ _ E1). rewrite compare_refl in B1. discriminate.
    + destruct (String.eqb_spec k k1) as [->|]; [|discriminate].
      exfalso. apply (member_in _ (sorted_tail _ _ _ H2)) in E2. specialize (B2 _ _ E2). rewrite compare_refl in B2. discriminate.
Qed.

Lemma lookup_member {A} (l : list (string * A)) : keys_sorted l -> forall k, lookup k l = last_member k l.
Proof.
  induction l as [|[k0 x0] l IH]; intros Hs k; [reflexivity|].
  unfold lookup in *. cbn [List.find fst last_member]. destruct (String.eqb_spec k0 k) as [->|Hn].
  - rewrite last_member_none; [rewrite String.eqb_refl; reflexivity|].
    intros k' y Hy ->. pose proof (sorted_below _ _ _ Hs _ _ Hy) as C. rewrite compare_refl in C. discriminate.
  - rewrite IH by (eapply sorted_tail; exact Hs). destruct (last_member k l); [reflexivity|].
    destruct (String.eqb_spec k k0); [congruence|reflexivity].
Qed.

(** Putting the entries of a map into an empty one, in any order. *)
Fixpoint put_all {A} (ks : list string) (l : list (string * A)) (m : list (string * A)) : list (string * A) :=
  match ks with
  | [] => m
  | k :: ks => put_all ks l (match lookup k l with Some x => put k x m | None => m end)
  end.

Lemma put_all_member {A} (l : list (string * A)) ks : forall m, keys_sorted m -> keys_sorted (put_all ks l m)
  /\ forall k, last_member k (put_all ks l m) =
       if existsb (String.eqb k) ks then match lookup k l with Some x => Some x | None => last_member k m end else last_member k m.
Proof.
  induction ks as [|k0 ks IH]; intros m Hm; [split; [exact Hm|reflexivity]|].
  cbn [put_all existsb].
  assert (Hm' : keys_sorted (match lookup k0 l with Some x => put k0 x m | None => m end)).
  { destruct (lookup k0 l); [apply put_sorted|]; exact Hm. }
  destruct (IH _ Hm') as [S1 S2]. split; [exact S1|]. intros k. rewrite S2.
  assert (Hp : last_member k (match lookup k0 l with Some x => put k0 x m | None => m end)
    = if String.eqb k k0 then match lookup k l with Some x => Some x | None => last_member k m end else last_member k m).
  { destruct (String.eqb_spec k k0) as [->|Hn].
    - destruct (lookup k0 l); [|reflexivity]. rewrite put_member by exact Hm. rewrite String.eqb_refl. reflexivity.
    - destruct (lookup k0 l); [|reflexivity]. rewrite put_member by exact Hm. destruct (String.eqb_spec k k0); [congruence|reflexivity]. }
  rewrite Hp. clear. destruct (String.eqb_spec k k0) as [E|Hn]; cbn [orb].
  - subst k0. destruct (existsb _ ks); destruct (lookup k l); reflexivity.
  - reflexivity.
Qed.

Lemma put_all_back {A} (l : list (string * A)) ks : keys_sorted l -> Permutation (map fst l) ks -> put_all ks l [] = l.
Proof.
  intros Hs Hp. destruct (put_all_member l ks [] ltac:(exact Logic.I)) as [S1 S2].
  apply sorted_ext; [exact S1|exact Hs|]. intros k. rewrite S2, (lookup_member l Hs k).
  destruct (last_member k l) as [x|] eqn:E.
  - replace (existsb (String.eqb k) ks) with true; [reflexivity|]. symmetry. apply existsb_exists. exists k.
    split; [|apply String.eqb_refl]. apply (Permutation_in k Hp). apply in_map_iff. exists (k, x). split; [reflexivity|].
    apply member_in; assumption.
  - destruct (existsb _ ks); reflexivity.
Qed.

Lemma lookup_map {A B} (f : A -> B) k (l : list (string * A)) :
  lookup k (map (fun p => (fst p, f (snd p))) l) = match lookup k l with Some x => Some (f x) | None => None end.
Proof.
  unfold lookup. induction l as [|[k0 x0] l IH]; [reflexivity|]. cbn [map List.find fst snd].
  destruct (String.eqb k0 k); [reflexivity|exact IH].
Qed.

(** * Values *)

Section MInd.
Variable P : mval -> Prop.
Hypothesis Hnil : P MNil.
Hypothesis Hbool : forall b, P (MBool b).
Hypothesis Hint : forall z, P (MInt z).
Hypothesis Huint : forall n, P (MUint n).
Hypothesis Hfl : forall n, P (MFloat n).
Hypothesis Hstr : forall s, P (MStr s).
Hypothesis Hnum : forall s, P (MNumber s).
Hypothesis Hsl : forall l, Forall P l -> P (MSlice l).
Hypothesis Hmap : forall l, Forall (fun p => P (snd p)) l -> P (MMap l).
Fixpoint mval_ind' (v : mval) : P v :=
  match v with
  | MNil => Hnil | MBool b => Hbool b | MInt z => Hint z | MUint n => Huint n | MFloat n => Hfl n
  | MStr s => Hstr s | MNumber s => Hnum s
  | MSlice l => Hsl l ((fix go l : Forall P l := match l with [] => Forall_nil _ | x :: r => Forall_cons x (mval_ind' x) (go r) end) l)
  | MMap l => Hmap l ((fix go l : Forall (fun p => P (snd p)) l :=
                 match l with [] => Forall_nil _ | x :: r => Forall_cons x (mval_ind' (snd x)) (go r) end) l)
  end.
End MInd.

Section Order.
Variable order : list string -> list string.
Hypothesis Horder : any_order order.

Lemma value_nonempty v : (1 <= String.length (put_value order v))%nat.
Proof.
  destruct v as [|b| | | | | |l|l]; try (cbn; lia).
  - destruct b; cbn; lia.
  - apply string_nonempty.
  - apply string_nonempty.
  - cbn [put_value]. rewrite app_length_s. pose proof (len_nonempty 144 16 None 220 221 (count l)). unfold put_array_len. lia.
  - cbn [put_value]. rewrite app_length_s. pose proof (len_nonempty 128 16 None 222 223 (count l)). unfold put_map_len. lia.
Qed.

Definition slice_text (l : list mval) : string := fold_right (fun x rest => put_value order x ++ rest) "" l.
Definition keys_text (l : list (string * mval)) (ks : list string) : string :=
  fold_right (fun k rest => match lookup k l with Some x => put_string k ++ put_value order x ++ rest | None => rest end) "" ks.

Lemma entries_text l : entries order (map (fun p => (fst p, put_value order (snd p))) l) = keys_text l (order (map fst l)).
Proof.
  unfold entries, keys_text. rewrite map_map. cbn [fst].
  induction (order (map (fun x => fst x) l)) as [|k ks IH]; [reflexivity|]. cbn [fold_right].
  rewrite lookup_map, IH. destruct (lookup k l); reflexivity.
Qed.

Ltac codes := repeat match goal with
  | |- context [?c =? ?k] => replace (c =? k) with false by (symmetry; apply N.eqb_neq; lia)
  | |- context [in_range ?a ?b ?c] => first [replace (in_range a b c) with false by (symmetry; apply in_range_out; lia)
                                             | replace (in_range a b c) with true by (symmetry; apply in_range_spec; lia)]
  end.

Lemma get_value_string f c r t s : (160 <= N_of_ascii c <= 191 \/ 217 <= N_of_ascii c <= 219) -> read_string_as (N_of_ascii c) r = Got s t ->
  get_value (S f) (String c r) = Got (MStr s) t.
Proof.
  intros Hc E. cbn [get_value read_code then_read]. set (n := N_of_ascii c) in *. codes.
  replace (in_range 160 191 n || in_range 217 219 n) with true.
  2:{ symmetry. apply orb_true_iff. rewrite !in_range_spec. exact Hc. }
  rewrite E. reflexivity.
Qed.

Lemma lookup_in {A} k (l : list (string * A)) x : lookup k l = Some x -> In (k, x) l.
Proof.
  unfold lookup. destruct (List.find _ l) as [[k' y]|] eqn:E; [|discriminate]. intros [= <-].
  apply find_some in E as [Hi Hk]. cbn in Hk. apply String.eqb_eq in Hk. subst k'. exact Hi.
Qed.

Lemma value_back v : plain_value v -> forall f t, (2 * String.length (put_value order v) <= f)%nat ->
  get_value f (put_value order v ++ t) = Got v t.
Proof.
  induction v as [|b|z|n|n|s|s|l IH|l IH] using mval_ind'; intros Hv f t Hf;
    (destruct f as [|f]; [match type of Hf with (2 * String.length (put_value order ?v) <= 0)%nat => pose proof (value_nonempty v); lia end|]).
  - reflexivity.
  - destruct b; reflexivity.
  - inversion Hv as [| |z' Hz| | | | |]; subst. destruct (u64_back z Hz) as [B E].
    cbn [put_value put_int append]. 
    change (get_value (S f) (String "211" (big_endian 8 (to_u64 z) ++ t)))
      with (then_read (read_big 8 (big_endian 8 (to_u64 z) ++ t)) (fun n r' => Got (MInt (of_u64 n)) r')).
    rewrite read_big8 by exact B. cbn [then_read]. rewrite E. reflexivity.
  - inversion Hv; subst.
    change (get_value (S f) (put_value order (MUint n) ++ t))
      with (then_read (read_big 8 (big_endian 8 n ++ t)) (fun n r' => Got (MUint n) r')).
    rewrite read_big8 by assumption. reflexivity.
  - inversion Hv; subst.
    change (get_value (S f) (put_value order (MFloat n) ++ t))
      with (then_read (read_big 8 (big_endian 8 n ++ t)) (fun n r' => Got (MFloat n) r')).
    rewrite read_big8 by assumption. reflexivity.
  - inversion Hv as [| | | | |s' Hs| |]; subst. cbn [put_value].
    destruct (string_len_back s t Hs) as (c & r & -> & Hc & E). apply get_value_string; assumption.
  - inversion Hv.
  - inversion Hv as [| | | | | |l' Hn Hl|]; subst. cbn [put_value] in *. fold (slice_text l) in *. rewrite app_assoc_s.
    rewrite app_length_s in Hf. unfold put_array_len in Hf at 1. pose proof (len_nonempty 144 16 None 220 221 (count l)) as Hlen.
    destruct (array_len_back (count l) (slice_text l ++ t) Hn) as (c & r & -> & Hc & E).
    cbn [get_value read_code then_read]. set (n := N_of_ascii c) in *.
    assert (G : forall l g, Forall (fun v => plain_value v -> forall f t, (2 * String.length (put_value order v) <= f)%nat ->
        get_value f (put_value order v ++ t) = Got v t) l -> (forall x, In x l -> plain_value x) ->
        (2 * String.length (slice_text l) + 1 <= g)%nat -> get_list g (count l) (slice_text l ++ t) = Got l t).
    { clear. induction l as [|x l IHl]; intros g Hall Hp Hg; (destruct g as [|g]; [lia|]); [reflexivity|].
      inversion Hall as [|? ? Hx Hall']; subst. cbn [get_list slice_text fold_right] in *. fold (slice_text l) in *.
      replace (count (x :: l) =? 0) with false by (symmetry; apply N.eqb_neq; unfold count; cbn [List.length]; lia).
      rewrite app_assoc_s. rewrite app_length_s in Hg. pose proof (value_nonempty x).
      rewrite Hx; [|apply Hp; left; reflexivity|lia]. cbn [then_read].
      replace (count (x :: l) - 1) with (count l) by (unfold count; cbn [List.length]; lia).
      rewrite IHl; [reflexivity|exact Hall'|intros y Hy; apply Hp; right; exact Hy|lia]. }
    codes.
    replace (in_range 160 191 n || in_range 217 219 n) with false by (symmetry; apply orb_false_iff; split; apply in_range_out; lia).
    replace (in_range 144 159 n || in_range 220 221 n) with true by (symmetry; apply orb_true_iff; rewrite !in_range_spec; exact Hc).
    rewrite E. cbn [then_read]. rewrite G; [reflexivity|exact IH|exact Hl|lia].
  - inversion Hv as [| | | | | | |l' Hn Hs Hl]; subst. cbn [put_value] in *. rewrite entries_text in *. rewrite app_assoc_s.
    rewrite app_length_s in Hf. unfold put_map_len in Hf at 1. pose proof (len_nonempty 128 16 None 222 223 (count l)) as Hlen.
    destruct (map_len_back (count l) (keys_text l (order (map fst l)) ++ t) Hn) as (c & r & -> & Hc & E).
    cbn [get_value read_code then_read]. set (n := N_of_ascii c) in *.
    assert (G : forall ks m g, (forall k, In k ks -> exists x, lookup k l = Some x) ->
        (2 * String.length (keys_text l ks) + 1 <= g)%nat ->
        get_map g (count ks) m (keys_text l ks ++ t) = Got (put_all ks l m) t).
    { induction ks as [|k ks IHk]; intros m g Hk Hg; (destruct g as [|g]; [lia|]); [reflexivity|].
      cbn [get_map keys_text fold_right put_all] in *. fold (keys_text l ks) in *.
      destruct (Hk k (or_introl eq_refl)) as (x & Ex). rewrite Ex in *. pose proof (lookup_in _ _ _ Ex) as Hin.
      replace (count (k :: ks) =? 0) with false by (symmetry; apply N.eqb_neq; unfold count; cbn [List.length]; lia).
      rewrite !app_assoc_s. destruct (Hl _ _ Hin) as [Fk Px]. rewrite string_back by exact Fk. cbn [then_read].
      rewrite !app_length_s in Hg. pose proof (string_nonempty k). pose proof (value_nonempty x).
      rewrite Forall_forall in IH. pose proof (IH (k, x) Hin Px) as Bx. cbn [snd] in Bx. rewrite Bx by lia. cbn [then_read].
      replace (count (k :: ks) - 1) with (count ks) by (unfold count; cbn [List.length]; lia).
      apply IHk; [intros k' Hk'; apply Hk; right; exact Hk'|lia]. }
    codes.
    replace (in_range 160 191 n || in_range 217 219 n) with false by (symmetry; apply orb_false_iff; split; apply in_range_out; lia).
    replace (in_range 144 159 n || in_range 220 221 n) with false by (symmetry; apply orb_false_iff; split; apply in_range_out; lia).
    replace (in_range 128 143 n || in_range 222 223 n) with true by (symmetry; apply orb_true_iff; rewrite !in_range_spec; exact Hc).
    rewrite E. cbn [then_read].
    replace (count l) with (count (order (map fst l))).
    2:{ unfold count. f_equal. rewrite <- (Permutation_length (Horder (map fst l))). apply map_length. }
    rewrite G; [|intros k Hk|lia].
    + cbn [then_read]. rewrite put_all_back by (auto; apply Horder). reflexivity.
    + apply (Permutation_in k (Permutation_sym (Horder (map fst l)))) in Hk. apply in_map_iff in Hk as ([k' x] & <- & Hi).
      exists x. rewrite lookup_member by exact Hs. apply member_in; assumption.
Qed.
End Order.

(** * More bytes behind what was read change nothing *)

Definition carries {A} (p : string -> got A) : Prop := forall s x r q, p s = Got x r -> p (s ++ q) = Got x (r ++ q).

Lemma carries_then {A B} (p : string -> got A) (k : A -> string -> got B) :
  carries p -> (forall x, carries (k x)) -> carries (fun s => then_read (p s) k).
Proof.
  intros Hp Hk s x r q H. cbn beta in *. destruct (p s) as [y r1| |] eqn:E; cbn [then_read] in H; try discriminate.
  rewrite (Hp _ _ _ q E). cbn [then_read]. apply Hk. exact H.
Qed.
Lemma carries_got {A} (x : A) : carries (fun s => Got x s).
Proof. intros s y r q [= -> ->]. reflexivity. Qed.
Lemma carries_wrong {A} : carries (fun _ => @Wrong A).
Proof. intros s y r q H. discriminate H. Qed.
Lemma carries_if {A} (b : bool) (p1 p2 : string -> got A) : carries p1 -> carries p2 -> carries (fun s => if b then p1 s else p2 s).
Proof. destruct b; auto. Qed.
Lemma carries_code : carries read_code.
Proof. intros [|a s] x r q; [discriminate|]. intros [= <- <-]. reflexivity. Qed.

Lemma take_more n : forall s x r q, take n s = Some (x, r) -> take n (s ++ q) = Some (x, r ++ q).
Proof.
  induction n as [|n IH]; intros s x r q H.
  - destruct s; injection H as <- <-; reflexivity.
  - destruct s as [|a s]; [discriminate|]. cbn [take append] in *. destruct (take n s) as [[x' r']|] eqn:E; [|discriminate].
    rewrite (IH _ _ _ q E). injection H as <- <-. reflexivity.
Qed.
Lemma carries_n n : carries (read_n n).
Proof.
  intros s x r q H. unfold read_n in *. destruct s as [|a s].
  - destruct (N.eqb_spec n 0) as [->|]; [|discriminate]. injection H as <- <-. cbn [append].
    destruct q; [reflexivity|]. replace (size _ <? 0) with false by (symmetry; apply N.ltb_ge; lia). reflexivity.
  - cbn [append]. change (String a (s ++ q)) with (String a s ++ q).
    destruct (size (String a s) <? n) eqn:L; [discriminate|]. apply N.ltb_ge in L.
    replace (size (String a s ++ q) <? n) with false by (symmetry; apply N.ltb_ge; rewrite size_app; lia).
    destruct (take (N.to_nat n) (String a s)) as [[y r1]|] eqn:E; [|discriminate].
    rewrite (take_more _ _ _ _ q E). injection H as <- <-. reflexivity.
Qed.
Lemma carries_big n : carries (read_big n).
Proof. apply carries_then; [apply carries_n|intros; apply carries_got]. Qed.
Lemma carries_string_as c : carries (read_string_as c).
Proof.
  unfold read_string_as. repeat apply carries_if; first [apply carries_got | apply carries_wrong | apply carries_n
    | apply carries_then; [apply carries_big|intros; apply carries_n]].
Qed.
Lemma carries_string : carries read_string.
Proof. apply carries_then; [apply carries_code|apply carries_string_as]. Qed.
Lemma carries_map_len c : carries (read_map_len c).
Proof. unfold read_map_len. repeat apply carries_if; first [apply carries_got | apply carries_wrong | apply carries_big]. Qed.
Lemma carries_array_len c : carries (read_array_len c).
Proof. unfold read_array_len. repeat apply carries_if; first [apply carries_got | apply carries_wrong | apply carries_big]. Qed.

(** The same for readers with fuel: more of it changes nothing either. *)
Definition follows {A} (p p' : string -> got A) : Prop := forall s x r q, p s = Got x r -> p' (s ++ q) = Got x (r ++ q).
Lemma follows_then {A B} (p p' : string -> got A) (k k' : A -> string -> got B) :
  follows p p' -> (forall x, follows (k x) (k' x)) -> follows (fun s => then_read (p s) k) (fun s => then_read (p' s) k').
Proof.
  intros Hp Hk s x r q H. cbn beta in *. destruct (p s) as [y r1| |] eqn:E; cbn [then_read] in H; try discriminate.
  rewrite (Hp _ _ _ q E). cbn [then_read]. apply Hk. exact H.
Qed.
Lemma follows_if {A} (b : bool) (p1 p2 p1' p2' : string -> got A) : follows p1 p1' -> follows p2 p2' ->
  follows (fun s => if b then p1 s else p2 s) (fun s => if b then p1' s else p2' s).
Proof. destruct b; auto. Qed.

Lemma values_follow : forall f g, (f <= g)%nat ->
  follows (get_value f) (get_value g)
  /\ (forall n, follows (get_list f n) (get_list g n))
  /\ (forall n m, follows (get_map f n m) (get_map g n m)).
Proof.
  induction f as [|f IH]; intros g Hg.
  - repeat split; intros; intros s x r q H; discriminate H.
  - destruct g as [|g]; [lia|]. destruct (IH g ltac:(lia)) as (V & L & M). split; [|split].
    + cbn [get_value]. apply follows_then; [apply carries_code|]. intros c. cbn beta.
      repeat apply follows_if; try apply carries_got; try apply carries_wrong;
        try (apply follows_then; [apply carries_big|intros; apply carries_got]).
      * apply follows_then; [apply carries_string_as|intros; apply carries_got].
      * apply follows_then; [apply carries_array_len|intros n]. apply follows_then; [apply L|intros; apply carries_got].
      * apply follows_then; [apply carries_map_len|intros n]. apply follows_then; [apply M|intros; apply carries_got].
    + intros n. cbn [get_list]. apply follows_if; [apply carries_got|].
      apply follows_then; [apply V|intros x]. apply follows_then; [apply L|intros; apply carries_got].
    + intros n m. cbn [get_map]. apply follows_if; [apply carries_got|].
      apply follows_then; [apply carries_string|intros k]. apply follows_then; [apply V|intros x]. apply M.
Qed.

Lemma enough_mono s q : (enough s <= enough (s ++ q))%nat.
Proof. unfold enough. rewrite app_length_s. lia. Qed.

Lemma carries_value : carries (fun s => get_value (enough s) s).
Proof. intros s x r q H. exact (proj1 (values_follow _ _ (enough_mono s q)) _ _ _ _ H). Qed.

Lemma carries_number : carries get_number.
Proof.
  apply carries_then; [apply carries_code|intros c]. repeat apply carries_if; first [apply carries_got | apply carries_wrong | apply carries_big].
Qed.
Lemma carries_field f : carries (get_field f).
Proof.
  destruct f; cbn [get_field]; apply carries_then; try (intros; apply carries_got).
  - apply carries_string.
  - apply carries_number.
  - apply carries_number.
  - apply carries_code.
  - intros c. repeat apply carries_if; first [apply carries_got | apply carries_wrong].
  - apply carries_value.
Qed.
Lemma members_follow : forall f g, (f <= g)%nat -> forall n l, follows (get_members f n l) (get_members g n l).
Proof.
  induction f as [|f IH]; intros g Hg n l; [intros s x r q H; discriminate H|].
  destruct g as [|g]; [lia|]. cbn [get_members]. apply follows_if; [apply carries_got|].
  apply follows_then; [apply carries_string|intros k]. destruct (lookup k l).
  - apply follows_then; [apply carries_field|intros x]. apply IH. lia.
  - apply (follows_then (fun s => get_value (enough s) s) (fun s => get_value (enough s) s)); [apply carries_value|intros x]. apply IH. lia.
Qed.
Lemma carries_struct zero : carries (get_struct zero).
Proof.
  apply carries_then; [apply carries_code|intros c]. apply carries_if; [apply carries_got|].
  apply carries_then; [apply carries_map_len|intros n]. intros s x r q H.
  exact (members_follow _ _ (enough_mono s q) _ _ _ _ _ _ H).
Qed.
Lemma carries_payload types t : carries (get_payload types t).
Proof.
  unfold get_payload. destruct (types t); apply carries_then; try (intros; apply carries_got).
  - apply carries_struct.
  - apply carries_value.
Qed.
Lemma carries_record types : carries (get_record types).
Proof.
  intros s e r q H. unfold get_record in *.
  destruct (get_struct empty_mrecord s) as [l r1| |] eqn:E; try discriminate.
  rewrite (carries_struct _ _ _ _ q E).
  repeat match type of H with
  | context [match ?l with _ => _ end] => is_var l; destruct l; try discriminate
  end.
  all: destruct (get_payload types _ r1) as [d r2| |] eqn:Ep; try discriminate; rewrite (carries_payload _ _ _ _ _ q Ep);
    injection H as <- <-; reflexivity.
Qed.

(** * Structs and records *)

Section Order2.
Variable order : list string -> list string.
Hypothesis Horder : any_order order.

Lemma number_back n t : n < 2 ^ 64 -> get_number (put_uint n ++ t) = Got n t.
Proof. intros H. change (get_number (put_uint n ++ t)) with (read_big 8 (big_endian 8 n ++ t)). apply read_big8. exact H. Qed.
Lemma int_back z t : (- 2 ^ 63 <= z < 2 ^ 63)%Z -> get_number (put_int z ++ t) = Got (to_u64 z) t.
Proof.
  intros H. change (get_number (put_int z ++ t)) with (read_big 8 (big_endian 8 (to_u64 z) ++ t)).
  apply read_big8. apply (u64_back z H).
Qed.

Lemma field_back zero f t : of_mtype zero f -> get_field zero (put_field order f ++ t) = Got f t.
Proof.
  intros H. destruct zero, f; try contradiction; cbn [of_mtype get_field put_field] in *.
  - rewrite string_back by exact H. reflexivity.
  - rewrite int_back by exact H. cbn [then_read]. rewrite (proj2 (u64_back _ H)). reflexivity.
  - rewrite number_back by exact H. reflexivity.
  - destruct b0; reflexivity.
  - rewrite (value_back order Horder _ H); [reflexivity|]. unfold enough. rewrite app_length_s. lia.
Qed.

Definition fields_text (l : list (string * mfield)) : string :=
  fold_right (fun p rest => put_string (fst p) ++ put_field order (snd p) ++ rest) "" l.

Lemma lookup_skip {A} k (d : list (string * A)) f z : ~ In k (map fst d) -> lookup k (d ++ (k, f) :: z)%list = Some f.
Proof.
  unfold lookup. induction d as [|[k0 x0] d IH]; intros H; cbn [List.app List.find fst].
  - rewrite String.eqb_refl. reflexivity.
  - destruct (String.eqb_spec k0 k) as [->|]; [exfalso; apply H; left; reflexivity|]. apply IH. intros Hi. apply H. right. exact Hi.
Qed.
Lemma replace_skip k (d : list (string * mfield)) f g z : ~ In k (map fst d) ->
  replace_field k g (d ++ (k, f) :: z)%list = (d ++ (k, g) :: z)%list.
Proof.
  induction d as [|[k0 x0] d IH]; intros H; cbn [List.app replace_field].
  - rewrite String.eqb_refl. reflexivity.
  - destruct (String.eqb_spec k0 k) as [->|]; [exfalso; apply H; left; reflexivity|]. rewrite IH; [reflexivity|].
    intros Hi. apply H. right. exact Hi.
Qed.

Lemma members_back zero l : Forall2 (fun z f => fst z = fst f /\ fits (fst f) /\ of_mtype (snd z) (snd f)) zero l ->
  forall d g t, NoDup (map fst d ++ map fst zero) -> (List.length l < g)%nat ->
  get_members g (count l) (d ++ zero)%list (fields_text l ++ t) = Got (d ++ l)%list t.
Proof.
  induction 1 as [|[k z] [k' f] zero l (Hk & Hf & Ht) H IH]; intros d g t Hd Hg; (destruct g as [|g]; [cbn in Hg; lia|]).
  - reflexivity.
  - cbn [fst snd] in *. subst k'. cbn [get_members fields_text fold_right fst snd]. fold (fields_text l).
    replace (count ((k, f) :: l) =? 0) with false by (symmetry; apply N.eqb_neq; unfold count; cbn [List.length]; lia).
    rewrite !app_assoc_s, string_back by exact Hf. cbn [then_read].
    assert (Hn : ~ In k (map fst d)).
    { cbn [map fst] in Hd. apply NoDup_remove_2 in Hd. intros Hi. apply Hd. apply in_or_app. left. exact Hi. }
    rewrite lookup_skip by exact Hn. rewrite field_back by exact Ht. cbn [then_read].
    rewrite replace_skip by exact Hn.
    replace (count ((k, f) :: l) - 1) with (count l) by (unfold count; cbn [List.length]; lia).
    replace (d ++ (k, f) :: zero)%list with ((d ++ [(k, f)]) ++ zero)%list by (rewrite <- app_assoc; reflexivity).
    rewrite IH; [rewrite <- app_assoc; reflexivity| |cbn [List.length] in Hg; lia].
    rewrite map_app. cbn [map fst]. rewrite <- app_assoc. exact Hd.
Qed.

Lemma same_length {A B} (R : A -> B -> Prop) l1 l2 : Forall2 R l1 l2 -> List.length l1 = List.length l2.
Proof. induction 1; cbn; congruence. Qed.

Lemma fields_long l : (List.length l <= String.length (fields_text l))%nat.
Proof.
  induction l as [|[k f] l IH]; [cbn; lia|]. cbn [fields_text fold_right fst snd List.length]. fold (fields_text l).
  rewrite !app_length_s. pose proof (string_nonempty k). lia.
Qed.

Lemma struct_back zero l t : NoDup (map fst zero) -> count zero < 2 ^ 32 ->
  Forall2 (fun z f => fst z = fst f /\ fits (fst f) /\ of_mtype (snd z) (snd f)) zero l ->
  get_struct zero (put_struct order l ++ t) = Got l t.
Proof.
  intros Hd Hc H. unfold put_struct. fold (fields_text l). rewrite app_assoc_s.
  assert (Hn : count l < 2 ^ 32) by (unfold count in *; rewrite <- (same_length _ _ _ H); exact Hc).
  destruct (map_len_back (count l) (fields_text l ++ t) Hn) as (c & r & -> & Hcode & E).
  unfold get_struct. cbn [read_code then_read]. replace (N_of_ascii c =? 192) with false by (symmetry; apply N.eqb_neq; lia).
  rewrite E. cbn [then_read]. apply (members_back zero l H [] _ t); [exact Hd|].
  unfold enough. rewrite app_length_s. pose proof (fields_long l). lia.
Qed.

Variable types : string -> option (list (string * mfield)).

Lemma payload_back t d x : mdata_of_type types t d -> get_payload types t (put_payload order d ++ x) = Got d x.
Proof.
  unfold mdata_of_type, get_payload. destruct (types t) as [zero|]; destruct d as [v|l|v]; try contradiction; intros H.
  - destruct H as (Hd & Hc & H). cbn [put_payload]. rewrite struct_back with (1 := Hd) (2 := Hc) (3 := H). reflexivity.
  - cbn [put_payload]. rewrite (value_back order Horder _ H); [reflexivity|]. unfold enough. rewrite app_length_s. lia.
Qed.

Lemma header_back e t : fits (m_stream e) /\ fits (m_atype e) /\ fits (m_aid e) /\ fits (m_eid e) /\ fits (m_etype e)
  /\ m_gsn e < 2 ^ 64 /\ m_ssn e < 2 ^ 64 /\ m_ts e < 2 ^ 64 /\ plain_value (m_meta e) ->
  get_struct empty_mrecord (put_struct order (header e) ++ t) = Got (header e) t.
Proof.
  intros (H1 & H2 & H3 & H4 & H5 & H6 & H7 & H8 & H9). apply struct_back.
  - unfold empty_mrecord. cbn [map fst]. repeat (apply NoDup_cons; [cbn [In]; intuition discriminate|]). apply NoDup_nil.
  - reflexivity.
  - unfold empty_mrecord, header.
    repeat (apply Forall2_cons; [split; [reflexivity|split; [reflexivity|cbn [snd of_mtype]; first [assumption | exact plain_nil]]]|]).
    apply Forall2_nil.
Qed.

Lemma record_back e t : mordinary types e -> get_record types (put_record order e ++ t) = Got e t.
Proof.
  intros (H1 & H2 & H3 & H4 & H5 & H6 & H7 & H8 & H9 & H10). unfold get_record, put_record. rewrite app_assoc_s.
  rewrite header_back by (repeat split; assumption). unfold header. rewrite payload_back by exact H10. destruct e; reflexivity.
Qed.

(** What was written of unusual data: the record around it is the same. *)
Lemma record_written e t d x : mordinary types (mk_mentry (m_stream e) (m_atype e) (m_aid e) (m_gsn e) (m_ssn e) (m_ts e) (m_eid e) (m_etype e) d (m_meta e)) ->
  put_payload order (m_data e) = put_payload order x ->
  get_payload types (m_etype e) (put_payload order x ++ t) = Got d t ->
  get_record types (put_record order e ++ t)
    = Got (mk_mentry (m_stream e) (m_atype e) (m_aid e) (m_gsn e) (m_ssn e) (m_ts e) (m_eid e) (m_etype e) d (m_meta e)) t.
Proof.
  intros (H1 & H2 & H3 & H4 & H5 & H6 & H7 & H8 & H9 & _) E G. unfold get_record, put_record. rewrite app_assoc_s.
  rewrite header_back by (repeat split; assumption). unfold header. rewrite E, G. reflexivity.
Qed.

Lemma record_long e : (1 <= String.length (put_record order e))%nat.
Proof.
  unfold put_record, put_struct. rewrite !app_length_s. pose proof (len_nonempty 128 16 None 222 223 (count (header e))).
  unfold put_map_len. lia.
Qed.

(** * Streams *)

Definition stream_text (es : list mentry) : string := fold_right (fun e rest => put_record order e ++ rest) "" es.

Lemma write_all es : msgpack_write order (map MRec es) = (stream_text es, None).
Proof. induction es as [|e es IH]; [reflexivity|]. cbn [map msgpack_write]. rewrite IH. reflexivity. Qed.
Lemma write_until es x rest : msgpack_write order (map MRec es ++ MBad x :: rest)%list = (stream_text es, None).
Proof. induction es as [|e es IH]; [reflexivity|]. cbn [map List.app msgpack_write]. rewrite IH. reflexivity. Qed.

Lemma stream_long es : (List.length es <= String.length (stream_text es))%nat.
Proof.
  induction es as [|e es IH]; [cbn; lia|]. cbn [stream_text fold_right List.length]. fold (stream_text es).
  rewrite app_length_s. pose proof (record_long e). lia.
Qed.

Lemma records_then es : Forall (mordinary types) es -> forall g t,
  mrecords types (List.length es + g) (stream_text es ++ t) = (map MRec es ++ mrecords types g t)%list.
Proof.
  induction 1 as [|e es He H IH]; intros g t; [reflexivity|].
  cbn [List.length Nat.add mrecords stream_text fold_right map List.app]. fold (stream_text es).
  rewrite app_assoc_s, record_back by exact He. rewrite IH. reflexivity.
Qed.

Lemma read_all es : Forall (mordinary types) es -> msgpack_read types (stream_text es) = map MRec es.
Proof.
  intros H. unfold msgpack_read. pose proof (stream_long es) as L.
  replace (S (String.length (stream_text es))) with (List.length es + S (String.length (stream_text es) - List.length es))%nat by lia.
  rewrite <- (app_nil_s (stream_text es)) at 2. rewrite records_then by exact H.
  cbn [mrecords]. rewrite app_nil_r. reflexivity.
Qed.

(** A proper part of a record is not read as a record. *)
Lemma record_cut e p q : mordinary types e -> put_record order e = p ++ q -> q <> "" -> forall x r, get_record types p <> Got x r.
Proof.
  intros He E Hq x r G. apply (carries_record types _ _ _ q) in G. rewrite <- E in G.
  rewrite <- (app_nil_s (put_record order e)), record_back in G by exact He. injection G as _ G.
  destruct r; [cbn in G; congruence|discriminate].
Qed.

Lemma app_cut (a b p q : string) : a ++ b = p ++ q -> (exists m, a = p ++ m /\ m <> "" /\ q = m ++ b) \/ (exists m, p = a ++ m /\ b = m ++ q).
Proof.
  revert p. induction a as [|c a IH]; intros p H; [right; exists p; auto|].
  destruct p as [|c' p].
  - left. exists (String c a). repeat split; [discriminate|]. cbn in H. symmetry. exact H.
  - injection H as <- H. destruct (IH p H) as [(m & -> & Hm & ->)|(m & -> & ->)].
    + left. exists m. auto.
    + right. exists m. auto.
Qed.

Lemma stream_cut es : Forall (mordinary types) es -> forall p q g, stream_text es = p ++ q -> (String.length p < g)%nat ->
  mpart_of es (mrecords types g p).
Proof.
  induction 1 as [|e es He H IH]; intros p q g E Hg; (destruct g as [|g]; [lia|]).
  - cbn in E. destruct p; [|discriminate]. exists O. left. reflexivity.
  - cbn [stream_text fold_right] in E. fold (stream_text es) in E. apply app_cut in E as [(m & E & Hm & ->)|(m & -> & E)].
    + exists O. cbn [mrecords firstn map List.app]. destruct (get_record types p) as [x r| |] eqn:G; [|left; reflexivity|right; reflexivity].
      destruct (record_cut e p m He E Hm x r G).
    + cbn [mrecords]. rewrite record_back by exact He. rewrite app_length_s in Hg. pose proof (record_long e).
      destruct (IH m q g E ltac:(lia)) as (k & [->| ->]); exists (S k); [left|right]; reflexivity.
Qed.
End Order2.
