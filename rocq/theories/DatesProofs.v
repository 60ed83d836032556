(** The dates shown are those of the calendar. *)
From Coq Require Import ZArith.
From Verif Require Import Base DecText Dates DatesSpec.
Open Scope string_scope.
Open Scope N_scope.

(** * The calendar, in closed form *)

Definition leap_year (y : N) : bool := (y mod 4 =? 0) && (negb (y mod 100 =? 0) || (y mod 400 =? 0)).
Lemma divides a b : a <> 0 -> (b mod a =? 0) = true <-> N.divide a b.
Proof. intros H. rewrite N.eqb_eq. now apply N.mod_divide. Qed.
Lemma leap_spec y : leap_year y = true <-> leap y.
Proof.
  unfold leap_year, leap. rewrite andb_true_iff, orb_true_iff, negb_true_iff. rewrite !divides by discriminate.
  rewrite <- not_true_iff_false, divides by discriminate. split; [tauto|]. intros [[A B]|C]; [tauto|].
  split; [|tauto]. apply (N.divide_trans 4 400 y); [now exists 100|exact C].
Qed.

Definition ml (lp : bool) (m : N) : N :=
  if existsb (N.eqb m) [4; 6; 9; 11] then 30 else if m =? 2 then if lp then 29 else 28 else 31.
Lemma ml_spec y m : 1 <= m <= 12 -> month_length y m (ml (leap_year y) m).
Proof.
  intros H. assert (K : In m [1; 2; 3; 4; 5; 6; 7; 8; 9; 10; 11; 12]) by (cbn; lia).
  cbn [In] in K. destruct K as [<-|[<-|[<-|[<-|[<-|[<-|[<-|[<-|[<-|[<-|[<-|[<-|[]]]]]]]]]]]]]; cbn [ml existsb N.eqb Pos.eqb orb];
    try (apply long; cbn; tauto); try (apply short; cbn; tauto).
  destruct (leap_year y) eqn:E; [apply leap_february; now apply leap_spec|apply february; rewrite <- leap_spec; congruence].
Qed.
Fixpoint before (lp : bool) (k : nat) : N := match k with O => 0 | S j => before lp j + ml lp (N.of_nat j + 1) end.
Definition year_length (y : N) : N := if leap_year y then 366 else 365.
Fixpoint years (k : nat) : N := match k with O => 0 | S j => years j + year_length (1970 + N.of_nat j) end.

Lemma in_month y m n : 1 <= m <= 12 -> date_day y m 1 n -> forall d, (S d <= N.to_nat (ml (leap_year y) m))%nat -> date_day y m (N.of_nat (S d)) (n + N.of_nat d).
Proof.
  intros Hm H. induction d as [|d IH]; intros L.
  - cbn [N.of_nat]. rewrite N.add_0_r. exact H.
  - replace (N.of_nat (S (S d))) with (N.of_nat (S d) + 1) by lia. replace (n + N.of_nat (S d)) with (n + N.of_nat d + 1) by lia.
    apply (next_day y m (N.of_nat (S d)) (n + N.of_nat d) (ml (leap_year y) m)); [apply IH; lia|now apply ml_spec|lia].
Qed.
Lemma ml_pos lp m : 28 <= ml lp m.
Proof. unfold ml. destruct (existsb _ _), (m =? 2), lp; lia. Qed.
Lemma month_end y m n : 1 <= m <= 12 -> date_day y m 1 n -> date_day y m (ml (leap_year y) m) (n + ml (leap_year y) m - 1).
Proof.
  intros Hm H. pose proof (ml_pos (leap_year y) m). pose proof (in_month y m n Hm H (N.to_nat (ml (leap_year y) m) - 1) ltac:(lia)) as A.
  replace (N.of_nat (S (N.to_nat (ml (leap_year y) m) - 1))) with (ml (leap_year y) m) in A by lia.
  replace (n + ml (leap_year y) m - 1) with (n + N.of_nat (N.to_nat (ml (leap_year y) m) - 1)) by lia. exact A.
Qed.
Lemma month_starts y n : date_day y 1 1 n -> forall k, (k <= 11)%nat -> date_day y (N.of_nat k + 1) 1 (n + before (leap_year y) k).
Proof.
  intros H. induction k as [|k IH]; intros L; [cbn [before]; rewrite N.add_0_r; exact H|].
  pose proof (month_end y (N.of_nat k + 1) _ ltac:(lia) (IH ltac:(lia))) as A. cbn [before].
  pose proof (ml_pos (leap_year y) (N.of_nat k + 1)).
  replace (N.of_nat (S k) + 1) with (N.of_nat k + 1 + 1) by lia.
  replace (n + (before (leap_year y) k + ml (leap_year y) (N.of_nat k + 1))) with (n + before (leap_year y) k + ml (leap_year y) (N.of_nat k + 1) - 1 + 1) by lia.
  apply next_month with (1 := A); [apply ml_spec; lia|lia].
Qed.
Lemma year_starts k : date_day (1970 + N.of_nat k) 1 1 (years k).
Proof.
  induction k as [|k IH]; [exact first_day|]. pose proof (month_starts _ _ IH 11 ltac:(lia)) as A.
  pose proof (month_end _ 12 _ ltac:(lia) A) as B. cbn [years].
  replace (1970 + N.of_nat (S k)) with (1970 + N.of_nat k + 1) by lia.
  replace (years k + year_length (1970 + N.of_nat k)) with (years k + before (leap_year (1970 + N.of_nat k)) 11 + ml (leap_year (1970 + N.of_nat k)) 12 - 1 + 1).
  - apply next_year with (1 := B). apply ml_spec. lia.
  - assert (T : forall lp, before lp 11 + ml lp 12 = if lp then 366 else 365) by (intros []; reflexivity).
    pose proof (T (leap_year (1970 + N.of_nat k))). pose proof (ml_pos (leap_year (1970 + N.of_nat k)) 12). unfold year_length. lia.
Qed.
Lemma calendar k m d : (m <= 11)%nat -> (1 <= d)%nat -> (d <= N.to_nat (ml (leap_year (1970 + N.of_nat k)) (N.of_nat m + 1)))%nat ->
  date_day (1970 + N.of_nat k) (N.of_nat m + 1) (N.of_nat d) (years k + before (leap_year (1970 + N.of_nat k)) m + N.of_nat d - 1).
Proof.
  intros Hm H1 H2. pose proof (month_starts _ _ (year_starts k) m Hm) as A. assert (M : (1 <= N.of_nat m + 1 <= 12)) by lia.
  assert (B : date_day (1970 + N.of_nat k) (N.of_nat m + 1) (N.of_nat (S (d - 1))) (years k + before (leap_year (1970 + N.of_nat k)) m + N.of_nat (d - 1))) by (apply in_month; [exact M|exact A|lia]).
  replace (S (d - 1)) with d in B by lia. replace (years k + before (leap_year (1970 + N.of_nat k)) m + N.of_nat d - 1) with (years k + before (leap_year (1970 + N.of_nat k)) m + N.of_nat (d - 1)) by lia. exact B.
Qed.

(** * The library's arithmetic *)
Open Scope Z_scope.

Definition G (y : Z) : Z := 365 * (y - 1) + (y - 1) / 4 - (y - 1) / 100 + (y - 1) / 400.
Lemma G_next y : G (y + 1) = G y + (if is_leap y then 366 else 365).
Proof.
  unfold G, is_leap. replace (y + 1 - 1) with y by lia.
  destruct (Z.eqb_spec (y mod 4) 0), (Z.eqb_spec (y mod 100) 0), (Z.eqb_spec (y mod 400) 0); cbn [andb orb negb];
    Z.div_mod_to_equations; lia.
Qed.
Lemma leap_same y : leap_year y = is_leap (Z.of_N y).
Proof.
  unfold leap_year, is_leap. assert (E : forall a, (0 < a)%N -> (y mod a =? 0)%N = (Z.of_N y mod Z.of_N a =? 0)).
  { intros a Ha. rewrite <- N2Z.inj_mod by lia. destruct (N.eqb_spec (y mod a) 0) as [E|E]; symmetry; [rewrite E; reflexivity|apply Z.eqb_neq; lia]. }
  now rewrite (E 4%N), (E 100%N), (E 400%N) by lia.
Qed.
Lemma years_G k : Z.of_N (years k) = G (1970 + Z.of_nat k) - G 1970.
Proof.
  induction k as [|k IH]; [reflexivity|]. cbn [years]. rewrite N2Z.inj_add, IH. replace (1970 + Z.of_nat (S k)) with (1970 + Z.of_nat k + 1) by lia. rewrite G_next.
  unfold year_length. rewrite leap_same. replace (Z.of_N (1970 + N.of_nat k)) with (1970 + Z.of_nat k) by lia. destruct (is_leap _); lia.
Qed.

Lemma year_day n : 0 <= n -> let (y, d) := year_and_day (n * 86400 + unix_to_absolute) in
  n = G y - G 1970 + d /\ 0 <= d < (if is_leap y then 366 else 365).
Proof.
  intros Hn. unfold year_and_day. cbv zeta.
  replace ((n * 86400 + unix_to_absolute) / 86400) with (n + 106751991073094) by (unfold unix_to_absolute; Z.div_mod_to_equations; lia).
  remember (n + 106751991073094) as D eqn:ED. remember (D / 146097) as a eqn:Ea. remember (D - 146097 * a) as r1 eqn:E1.
  assert (B1 : 0 <= r1 < 146097) by (subst r1 a; Z.div_mod_to_equations; lia).
  remember (r1 / 36524 - r1 / 36524 / 4) as b eqn:Eb.
  assert (B2 : 0 <= b <= 3 /\ 0 <= r1 - 36524 * b <= 36524 /\ (b < 3 -> r1 - 36524 * b < 36524)) by (clear - B1 Eb; subst b; Z.div_mod_to_equations; lia).
  remember (r1 - 36524 * b) as r2 eqn:E2. remember (r2 / 1461) as c eqn:Ec.
  assert (B3 : 0 <= c <= 24 /\ 0 <= r2 - 1461 * c <= 1460) by (clear - B2 Ec; subst c; Z.div_mod_to_equations; lia).
  remember (r2 - 1461 * c) as r3 eqn:E3. remember (r3 / 365 - r3 / 365 / 4) as e eqn:Ee.
  assert (B4 : 0 <= e <= 3 /\ 0 <= r3 - 365 * e <= 365 /\ (e < 3 -> r3 - 365 * e < 365)) by (clear - B3 Ee; subst e; Z.div_mod_to_equations; lia).
  clear Ea Eb Ec Ee. unfold zero_year.
  replace (400 * a + 100 * b + 4 * c + e + -292277022399) with (400 * (a - 730692556) + 100 * b + 4 * c + e + 1) by lia.
  set (q := a - 730692556) in *. assert (Q : a = q + 730692556) by (unfold q; lia). clearbody q. subst a.
  assert (F4 : (400 * q + 100 * b + 4 * c + e) / 4 = 100 * q + 25 * b + c) by (Z.div_mod_to_equations; lia).
  assert (F100 : (400 * q + 100 * b + 4 * c + e) / 100 = 4 * q + b) by (Z.div_mod_to_equations; lia).
  assert (F400 : (400 * q + 100 * b + 4 * c + e) / 400 = q) by (Z.div_mod_to_equations; lia).
  split.
  - unfold G. replace (400 * q + 100 * b + 4 * c + e + 1 - 1) with (400 * q + 100 * b + 4 * c + e) by lia. rewrite F4, F100, F400.
    change ((1970 - 1) / 4) with 492. change ((1970 - 1) / 100) with 19. change ((1970 - 1) / 400) with 4. lia.
  - split; [lia|]. clear F4 F100 F400. destruct (Z.eq_dec (r3 - 365 * e) 365) as [L|L].
    + assert (e = 3) by lia. subst e. replace (is_leap _) with true; [lia|]. symmetry. unfold is_leap.
      replace ((400 * q + 100 * b + 4 * c + 3 + 1) mod 4) with 0 by (Z.div_mod_to_equations; lia). cbn [Z.eqb andb].
      destruct (Z.eq_dec c 24) as [->|C].
      * assert (b = 3) by lia. subst b. replace ((400 * q + 100 * 3 + 4 * 24 + 3 + 1) mod 400) with 0 by (Z.div_mod_to_equations; lia). apply orb_true_r.
      * replace ((400 * q + 100 * b + 4 * c + 3 + 1) mod 100 =? 0) with false; [reflexivity|]. symmetry. apply Z.eqb_neq. Z.div_mod_to_equations. lia.
    + destruct (is_leap _); lia.
Qed.

Definition month_good (lp : bool) (yd : nat) : bool :=
  let (m, d) := month_and_day lp (Z.of_nat yd) in
  (1 <=? m) && (m <=? 12) && (1 <=? d) && (d <=? Z.of_N (ml lp (Z.to_N m)))
  && (Z.of_N (before lp (Z.to_nat (m - 1))) + d - 1 =? Z.of_nat yd).
Lemma months_good : forall (lp : bool) (yd : nat), (yd < if lp then 366 else 365)%nat -> month_good lp yd = true.
Proof.
  assert (A : forallb (month_good true) (seq 0 366) = true) by (vm_compute; reflexivity).
  assert (B : forallb (month_good false) (seq 0 365) = true) by (vm_compute; reflexivity).
  rewrite forallb_forall in A, B. intros [] yd H; [apply A|apply B]; apply in_seq; lia.
Qed.

Lemma G_mono a b : a <= b -> G a <= G b.
Proof. intros H. unfold G. Z.div_mod_to_equations. lia. Qed.

(** The date of a day. *)
Lemma day_date n : 0 <= n -> exists y m d, date_day y m d (Z.to_N n) /\
  let (Y, yd) := year_and_day (n * 86400 + unix_to_absolute) in Y = Z.of_N y /\ month_and_day (is_leap Y) yd = (Z.of_N m, Z.of_N d)
  /\ (1970 <= y)%N /\ (1 <= m <= 12)%N /\ (1 <= d <= 31)%N.
Proof.
  intros Hn. pose proof (year_day n Hn) as Y. destruct (year_and_day (n * 86400 + unix_to_absolute)) as [y yd]. destruct Y as [E B].
  assert (Y0 : 1970 <= y).
  { destruct (Z_lt_le_dec y 1970) as [L|L]; [exfalso|exact L]. pose proof (G_next y) as N1. pose proof (G_mono (y + 1) 1970 ltac:(lia)). lia. }
  pose (k := Z.to_nat (y - 1970)). assert (Ek : y = Z.of_N (1970 + N.of_nat k)) by (unfold k; lia).
  assert (Eleap : is_leap y = leap_year (1970 + N.of_nat k)) by (now rewrite leap_same, <- Ek).
  pose proof (months_good (is_leap y) (Z.to_nat yd) ltac:(destruct (is_leap y); lia)) as M. unfold month_good in M. rewrite Z2Nat.id in M by lia.
  destruct (month_and_day (is_leap y) yd) as [m d] eqn:Em. rewrite !andb_true_iff, !Z.leb_le, Z.eqb_eq in M. destruct M as ((((M1 & M2) & M3) & M4) & M5).
  pose proof (calendar k (Z.to_nat (m - 1)) (Z.to_nat d)) as C.
  replace (N.of_nat (Z.to_nat (m - 1)) + 1)%N with (Z.to_N m) in C by lia. rewrite <- Eleap in C. specialize (C ltac:(lia) ltac:(lia) ltac:(lia)).
  exists (1970 + N.of_nat k)%N, (Z.to_N m), (N.of_nat (Z.to_nat d)). split.
  - replace (Z.to_N n) with (years k + before (is_leap y) (Z.to_nat (m - 1)) + N.of_nat (Z.to_nat d) - 1)%N; [exact C|].
    pose proof (years_G k) as YG. replace (1970 + Z.of_nat k) with y in YG by lia. lia.
  - split; [exact Ek|]. split; [f_equal; lia|]. split; [lia|]. split; [lia|].
    assert (ml (is_leap y) (Z.to_N m) <= 31)%N by (unfold ml; destruct (existsb _ _), (Z.to_N m =? 2)%N, (is_leap y); lia). lia.
Qed.

Lemma dec_short n : (n < 100)%N -> padded 2 (Z.of_N n) = two_digits n.
Proof.
  intros H. assert (A : forallb (fun k => String.eqb (padded 2 (Z.of_N (N.of_nat k))) (two_digits (N.of_nat k))) (seq 0 100) = true) by (vm_compute; reflexivity).
  rewrite forallb_forall in A. specialize (A (N.to_nat n) ltac:(apply in_seq; lia)). rewrite N2Nat.id in A. now apply String.eqb_eq.
Qed.

Lemma digits_bound s : forall a, all_digits s -> (fst (digits a s) < (a + 1) * 10 ^ N.of_nat (String.length s))%N.
Proof.
  induction s as [|c s IH]; intros a H; [cbn; lia|]. cbn [all_digits] in H. destruct H as [Hc Hs]. cbn [digits String.length]. destruct (digit c) as [v|] eqn:E; [|congruence].
  assert (V : (v <= 9)%N) by (clear - E; destruct c as [[] [] [] [] [] [] [] []]; vm_compute in E; try discriminate E; injection E as <-; discriminate).
  specialize (IH (10 * a + v)%N Hs). replace (N.of_nat (S (String.length s))) with (N.succ (N.of_nat (String.length s))) by lia. rewrite N.pow_succ_r by lia. 
  assert (0 < 10 ^ N.of_nat (String.length s))%N by (apply N.neq_0_lt_0, N.pow_nonzero; lia). nia.
Qed.
Lemma dec_long n : (1000 <= n)%N -> padded 4 (Z.of_N n) = dec n.
Proof.
  intros H. assert (L : (4 <= String.length (dec n))%nat).
  { pose proof (digits_bound (dec n) 0 (dec_all n)) as B. pose proof (digits_dec n "" ltac:(discriminate)) as E. replace (dec n ++ "") with (dec n) in E by (clear; induction (dec n) as [|c t IH]; cbn; congruence).
    rewrite E in B. cbn [fst] in B. destruct (le_lt_dec 4 (String.length (dec n))) as [K|K]; [exact K|exfalso].
    assert (10 ^ N.of_nat (String.length (dec n)) <= 10 ^ 3)%N by (apply N.pow_le_mono_r; lia). change (10 ^ 3)%N with 1000%N in *. lia. }
  unfold padded. rewrite Z.abs_eq, N2Z.id by lia. replace (Z.of_N n <? 0) with false by (symmetry; apply Z.ltb_ge; lia). replace (4 - String.length (dec n))%nat with 0%nat by lia. reflexivity.
Qed.

Lemma name_of m : (1 <= m <= 12)%N -> month_name m (nth (Z.to_nat (Z.of_N m - 1)) short_months "").
Proof.
  intros H. assert (K : In m [1; 2; 3; 4; 5; 6; 7; 8; 9; 10; 11; 12]%N) by (cbn; lia).
  cbn [In] in K. unfold month_name. destruct K as [<-|[<-|[<-|[<-|[<-|[<-|[<-|[<-|[<-|[<-|[<-|[<-|[]]]]]]]]]]]]]; cbn; tauto.
Qed.

Lemma shown_date ts : (ts < 9223372044994230016)%N -> date_of ts (format_date ts).
Proof.
  intros H. assert (A : absolute (to_int64 ts) = Z.of_N ts + unix_to_absolute).
  { unfold absolute, to_int64. destruct (N.ltb_spec ts (2 ^ 63)).
    - apply Z.mod_small. unfold unix_to_absolute. lia.
    - replace (Z.of_N ts - 2 ^ 64 + unix_to_absolute) with (Z.of_N ts + unix_to_absolute + (-1) * 2 ^ 64) by lia. rewrite Z.mod_add by lia. apply Z.mod_small. unfold unix_to_absolute. lia. }
  unfold format_date. cbv zeta. rewrite A.
  pose (n := Z.of_N ts / 86400). pose (sec := Z.of_N ts mod 86400). assert (E : Z.of_N ts = n * 86400 + sec /\ 0 <= n /\ 0 <= sec < 86400) by (unfold n, sec; Z.div_mod_to_equations; lia).
  clearbody n sec. destruct E as (E & Hn & Hsec).
  assert (Y : year_and_day (Z.of_N ts + unix_to_absolute) = year_and_day (n * 86400 + unix_to_absolute)).
  { unfold year_and_day. replace ((Z.of_N ts + unix_to_absolute) / 86400) with ((n * 86400 + unix_to_absolute) / 86400); [reflexivity|]. unfold unix_to_absolute. Z.div_mod_to_equations. lia. }
  assert (S : (Z.of_N ts + unix_to_absolute) mod 86400 = sec) by (unfold unix_to_absolute; Z.div_mod_to_equations; lia).
  rewrite Y, S. destruct (day_date n Hn) as (y & m & d & D & P). destruct (year_and_day (n * 86400 + unix_to_absolute)) as [Y' yd]. destruct P as (-> & M & Y1 & M1 & D1). rewrite M.
  exists y, m, d, (Z.to_N n), (nth (Z.to_nat (Z.of_N m - 1)) short_months ""), (Z.to_N (sec / 3600)), (Z.to_N (sec mod 3600 / 60)), (Z.to_N (sec mod 60)).
  assert (T : 0 <= sec / 3600 < 24 /\ 0 <= sec mod 3600 / 60 < 60 /\ 0 <= sec mod 60 < 60 /\ sec = sec / 3600 * 3600 + sec mod 3600 / 60 * 60 + sec mod 60) by (Z.div_mod_to_equations; lia).
  split; [exact D|]. split; [now apply name_of|]. split; [lia|]. split; [lia|]. split; [lia|]. split; [lia|].
  rewrite <- !dec_short by lia. rewrite !Z2N.id by lia. rewrite dec_long by lia. reflexivity.
Qed.

(** * A date says when *)
Open Scope N_scope.

Lemma month_length_is y m k : month_length y m k -> 1 <= m <= 12 /\ k = ml (leap_year y) m.
Proof.
  intros H. destruct H as [m H|m H|H|H].
  - cbn [In] in H. destruct H as [<-|[<-|[<-|[<-|[<-|[<-|[<-|[]]]]]]]]; split; try lia; reflexivity.
  - cbn [In] in H. destruct H as [<-|[<-|[<-|[<-|[]]]]]; split; try lia; reflexivity.
  - split; [lia|]. rewrite <- leap_spec in H. destruct (leap_year y); [congruence|reflexivity].
  - split; [lia|]. apply leap_spec in H. now rewrite H.
Qed.
Lemma date_closed y m d n : date_day y m d n -> 1970 <= y /\ 1 <= m <= 12 /\ 1 <= d <= ml (leap_year y) m
  /\ n + 1 = years (N.to_nat (y - 1970)) + before (leap_year y) (N.to_nat (m - 1)) + d.
Proof.
  induction 1 as [|y m d n k _ IH L K|y m d n _ IH L K|y d n _ IH L].
  - repeat split; try discriminate; reflexivity.
  - apply month_length_is in L as [_ ->]. lia.
  - apply month_length_is in L as [_ ->]. destruct IH as (A & B & C & D). split; [lia|]. split; [lia|]. pose proof (ml_pos (leap_year y) (m + 1)). split; [lia|].
    replace (N.to_nat (m + 1 - 1)) with (S (N.to_nat (m - 1))) by lia. cbn [before]. replace (N.of_nat (N.to_nat (m - 1)) + 1) with m by lia. lia.
  - apply month_length_is in L as [_ ->]. destruct IH as (A & B & C & D). split; [lia|]. split; [lia|]. pose proof (ml_pos (leap_year (y + 1)) 1). split; [lia|].
    replace (N.to_nat (y + 1 - 1970)) with (S (N.to_nat (y - 1970))) by lia. cbn [years]. replace (1970 + N.of_nat (N.to_nat (y - 1970))) with y by lia.
    change (N.to_nat (1 - 1)) with 0%nat. change (N.to_nat (12 - 1)) with 11%nat in D. cbn [before] in *.
    assert (T : before (leap_year y) 11 + ml (leap_year y) 12 = year_length y) by (unfold year_length; destruct (leap_year y); reflexivity). cbn [before] in T. lia.
Qed.

Lemma front_inj a : forall b r r', String.length a = String.length b -> a ++ r = b ++ r' -> a = b /\ r = r'.
Proof.
  induction a as [|x a IH]; intros [|y b] r r' L E; try discriminate L; cbn in *; [auto|].
  injection L as L. injection E as -> E. destruct (IH _ _ _ L E) as [-> ->]. auto.
Qed.
Lemma two_digits_inj a b r r' : a < 100 -> b < 100 -> two_digits a ++ r = two_digits b ++ r' -> a = b /\ r = r'.
Proof.
  assert (A : forall n, n < 100 -> String.length (two_digits n) = 2%nat /\ digits 0 (two_digits n) = (n, "")).
  { assert (B : forallb (fun k => Nat.eqb (String.length (two_digits (N.of_nat k))) 2 && N.eqb (fst (digits 0 (two_digits (N.of_nat k)))) (N.of_nat k) && String.eqb (snd (digits 0 (two_digits (N.of_nat k)))) "") (seq 0 100) = true) by (vm_compute; reflexivity).
    rewrite forallb_forall in B. intros n H. specialize (B (N.to_nat n) ltac:(apply in_seq; lia)). rewrite N2Nat.id, !andb_true_iff, Nat.eqb_eq, N.eqb_eq, String.eqb_eq in B. destruct B as [[B1 B2] B3].
    split; [exact B1|]. destruct (digits 0 (two_digits n)). cbn in B2, B3. congruence. }
  intros Ha Hb E. destruct (A a Ha) as [La Da], (A b Hb) as [Lb Db]. destruct (front_inj (two_digits a) (two_digits b) r r' ltac:(congruence) E) as [E1 ->]. split; [|reflexivity]. rewrite E1 in Da. congruence.
Qed.
Lemma name_inj m m' t t' r r' : month_name m t -> month_name m' t' -> t ++ r = t' ++ r' -> m = m' /\ r = r'.
Proof.
  assert (L : forall m t, month_name m t -> String.length t = 3%nat) by (intros k u H; unfold month_name in H; cbn [In] in H; repeat (destruct H as [H|H]; [injection H as <- <-; reflexivity|]); destruct H).
  intros H H' E. destruct (front_inj t t' r r' ltac:(rewrite (L m t), (L m' t'); auto) E) as [-> ->]. split; [|reflexivity].
  unfold month_name in *. cbn [In] in H, H'. repeat (destruct H as [H|H]; [injection H as <- <-; repeat (destruct H' as [H'|H']; [first [discriminate H'|injection H' as <-; reflexivity]|]); destruct H'|]). destruct H.
Qed.

Lemma date_text ts ts' t : date_of ts t -> date_of ts' t -> ts = ts'.
Proof.
  intros (y & m & d & n & name & hh & mm & ss & D & M & H1 & H2 & H3 & -> & E) (y' & m' & d' & n' & name' & hh' & mm' & ss' & D' & M' & H1' & H2' & H3' & -> & E').
  rewrite E in E'. apply date_closed in D as (A1 & A2 & A3 & A4), D' as (B1 & B2 & B3 & B4).
  assert (ml31 : forall lp k, ml lp k <= 31) by (intros lp k; unfold ml; destruct (existsb _ _), (k =? 2), lp; lia).
  pose proof (ml31 (leap_year y) m). pose proof (ml31 (leap_year y') m').
  destruct (name_inj _ _ _ _ _ _ M M' E') as [<- F]. clear E E'. injection F as F. apply two_digits_inj in F as [<- F]; [|lia|lia]. injection F as F.
  assert (Y : y = y' /\ " " ++ two_digits hh ++ ":" ++ two_digits mm ++ ":" ++ two_digits ss ++ " UTC" = " " ++ two_digits hh' ++ ":" ++ two_digits mm' ++ ":" ++ two_digits ss' ++ " UTC").
  { pose proof (f_equal (digits 0) F) as K. rewrite !digits_dec in K by (intros c rest Q; injection Q as <- _; reflexivity). injection K as -> K. split; [reflexivity|]. now f_equal. }
  destruct Y as [<- Y]. injection Y as Y. apply two_digits_inj in Y as [<- Y]; [|lia|lia]. injection Y as Y. apply two_digits_inj in Y as [<- Y]; [|lia|lia]. injection Y as Y. apply two_digits_inj in Y as [<- _]; [|lia|lia]. lia.
Qed.
