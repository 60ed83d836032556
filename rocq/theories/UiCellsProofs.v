(** Proofs about what pages show. *)
From Coq Require Import Arith.
From Verif Require Import Base Core DecText Text PathSpec PathProofs Http HttpSpec Paging PagingSpec PagingProofs UiCells UiCellsSpec.
Open Scope string_scope.
Open Scope N_scope.

Ltac known f := repeat match goal with |- context [f ?x] => let v := eval vm_compute in (f x) in change (f x) with v end.

(** * Texts *)

Lemma prefix_nil s : String.prefix "" s = true.
Proof. destruct s; reflexivity. Qed.

Lemma read_back s : lacks nul s = true -> read_html (html_escape s) = s.
Proof.
  unfold read_html. induction s as [|a s IH]; [reflexivity|]. cbn [lacks html_escape]. intros H. apply andb_true_iff in H as [H1 H2]. specialize (IH H2).
  destruct a as [[] [] [] [] [] [] [] []]; try (vm_compute in H1; discriminate H1); known html_ref; cbn -[html_escape]; rewrite ?prefix_nil, ?IH; reflexivity.
Qed.

Lemma escaped_lacks c s : In c ["<"; ">"; """"; "'"]%char -> lacks c (html_escape s) = true.
Proof.
  intros Hc. induction s as [|a s IH]; [reflexivity|]. cbn [html_escape]. rewrite lacks_app, IH, andb_true_r.
  destruct Hc as [<-|[<-|[<-|[<-|[]]]]]; destruct a as [[] [] [] [] [] [] [] []]; vm_compute; reflexivity.
Qed.

Lemma nul_shown s : lacks nul s = false -> read_html (html_escape s) <> s.
Proof.
  assert (Hl : forall s, lacks nul (read_html (html_escape s)) = true).
  { unfold read_html. clear s. induction s as [|a s IH]; [reflexivity|]. cbn [html_escape].
    destruct a as [[] [] [] [] [] [] [] []]; known html_ref; cbn -[html_escape lacks]; rewrite ?prefix_nil; cbn [lacks]; rewrite IH; reflexivity. }
  intros H E. specialize (Hl s). rewrite E in Hl. congruence.
Qed.

(** * Links *)

(** What percent-decoding makes of a text, escapes that are none left alone. *)
Fixpoint soft (s : string) : string :=
  match s with
  | EmptyString => EmptyString
  | String a rest =>
      match rest with
      | String h (String l rest') =>
          if Ascii.eqb a "%" then
            match unhex h, unhex l with
            | Some x, Some y => String (ascii_of_N (16 * x + y)) (soft rest')
            | _, _ => String a (soft rest)
            end
          else String a (soft rest)
      | _ => String a (soft rest)
      end
  end.

Lemma hex_kept a p : unhex a = Some p -> kept a = true.
Proof. destruct a as [[] [] [] [] [] [] [] []]; vm_compute; intros H; congruence. Qed.

Lemma byte_back a t : unescape false (String "%" (String (lowhex (N_of_ascii a / 16)) (String (lowhex (N_of_ascii a mod 16)) t)))
  = match unescape false t with Some x => Some (String a x) | None => None end.
Proof.
  destruct a as [[] [] [] [] [] [] [] []]; cbn [unescape]; known lowhex; known unhex; cbn iota; cbn; destruct (unescape false t); reflexivity.
Qed.

Lemma normalized s : unescape false (normalize s) = Some (soft s).
Proof.
  assert (H : forall n s, (String.length s <= n)%nat -> unescape false (normalize s) = Some (soft s)).
  2:{ exact (H (String.length s) s (le_n _)). }
  clear s. induction n as [|n IH]; intros s Hl.
  { destruct s; [reflexivity|cbn in Hl; lia]. }
  destruct s as [|a rest]; [reflexivity|]. cbn [String.length] in Hl. cbn [normalize].
  destruct (Ascii.eqb_spec a "%") as [->|Ha].
  - change (kept "%") with false. cbn [orb andb]. destruct (hex_pair rest) eqn:Eh.
    + destruct rest as [|h [|l rest']]; try discriminate. cbn [hex_pair] in Eh. unfold is_hex in Eh.
      destruct (unhex h) as [p|] eqn:Ep; [|discriminate]. destruct (unhex l) as [q|] eqn:Eq; [|discriminate].
      cbn [normalize]. rewrite (hex_kept _ _ Ep), (hex_kept _ _ Eq). cbn [orb unescape]. rewrite Ascii.eqb_refl, Ep, Eq.
      rewrite IH by (cbn in Hl; lia). cbn [soft]. rewrite Ascii.eqb_refl, Ep, Eq. reflexivity.
    + rewrite byte_back. rewrite IH by lia. f_equal. cbn [soft].
      destruct rest as [|h [|l rest']]; try reflexivity. rewrite Ascii.eqb_refl.
      cbn [hex_pair] in Eh. unfold is_hex in Eh. destruct (unhex h); [|reflexivity]. destruct (unhex l); [discriminate|reflexivity].
  - assert (Es : soft (String a rest) = String a (soft rest)).
    { cbn [soft]. destruct rest as [|h [|l rest']]; try reflexivity. rewrite (proj2 (Ascii.eqb_neq a "%") Ha). reflexivity. }
    rewrite Es. cbn [andb]. rewrite orb_false_r. destruct (kept a).
    + cbn [unescape]. rewrite (proj2 (Ascii.eqb_neq a "%") Ha), IH by lia. reflexivity.
    + rewrite byte_back. now rewrite IH by lia.
Qed.

Lemma soft_plain s x : unescape false s = Some x -> soft s = x.
Proof.
  assert (H : forall n s x, (String.length s <= n)%nat -> unescape false s = Some x -> soft s = x).
  2:{ exact (H (String.length s) s x (le_n _)). }
  clear s x. induction n as [|n IH]; intros s x Hl.
  { destruct s; [cbn; congruence|cbn in Hl; lia]. }
  destruct s as [|a rest]; [cbn; congruence|]. cbn [String.length] in Hl. cbn [unescape].
  destruct (Ascii.eqb a "%") eqn:Ea.
  - destruct rest as [|h [|l rest']]; try discriminate. destruct (unhex h) as [p|] eqn:Ep; [|discriminate].
    destruct (unhex l) as [q|] eqn:Eq; [|discriminate]. destruct (unescape false rest') as [t|] eqn:Et; [|discriminate].
    intros H. injection H as <-. cbn [soft]. rewrite Ea, Ep, Eq. f_equal. apply IH; [cbn in Hl; lia|exact Et].
  - destruct (unescape false rest) as [t|] eqn:Et; [|discriminate]. intros H. cbn [andb] in H. injection H as <-.
    assert (Es : soft (String a rest) = String a (soft rest)).
    { cbn [soft]. destruct rest as [|h [|l rest']]; try reflexivity. now rewrite Ea. }
    rewrite Es. f_equal. apply IH; [lia|exact Et].
Qed.

Lemma soft_none s : ~ has_escape s -> soft s = s.
Proof.
  assert (Hs : forall a s, ~ has_escape (String a s) -> ~ has_escape s).
  { intros a t H (x & h & l & y & p & q & E & Hh & Hl). apply H. exists (String a x), h, l, y, p, q. rewrite E. auto. }
  induction s as [|a rest IH]; [reflexivity|]. intros H. specialize (IH (Hs _ _ H)).
  cbn [soft]. destruct rest as [|h [|l rest']]; try (now rewrite IH).
  destruct (Ascii.eqb_spec a "%") as [->|Ha]; [|now rewrite IH].
  destruct (unhex h) as [p|] eqn:Ep; [|now rewrite IH]. destruct (unhex l) as [q|] eqn:Eq; [|now rewrite IH].
  exfalso. apply H. exists "", h, l, rest', p, q. repeat split; now apply hex_value.
Qed.

Lemma soft_length s : (String.length (soft s) <= String.length s)%nat.
Proof.
  assert (H : forall n s, (String.length s <= n)%nat -> (String.length (soft s) <= String.length s)%nat).
  2:{ exact (H (String.length s) s (le_n _)). }
  clear s. induction n as [|n IH]; intros s Hl.
  { destruct s; [cbn; lia|cbn in Hl; lia]. }
  destruct s as [|a rest]; [cbn; lia|]. cbn [String.length] in Hl. pose proof (IH rest ltac:(lia)) as I1.
  cbn [soft]. destruct rest as [|h [|l rest']]; try (cbn [String.length] in *; lia).
  pose proof (IH rest' ltac:(cbn in Hl; lia)) as I2.
  destruct (Ascii.eqb a "%"); [|cbn [String.length] in *; lia].
  destruct (unhex h); [|cbn [String.length] in *; lia]. destruct (unhex l); cbn [String.length] in *; lia.
Qed.

Lemma soft_shorter s : has_escape s -> (String.length (soft s) < String.length s)%nat.
Proof.
  assert (H : forall n s, (String.length s <= n)%nat -> has_escape s -> (String.length (soft s) < String.length s)%nat).
  2:{ exact (H (String.length s) s (le_n _)). }
  clear s. induction n as [|n IH]; intros s Hl (x & h & l & y & p & q & E & Hh & Hq).
  { subst s. rewrite app_length_s in Hl. cbn in Hl. lia. }
  destruct x as [|a x].
  { apply hex_value in Hh, Hq. cbn [append] in E. subst s. cbn [soft]. rewrite Ascii.eqb_refl, Hh, Hq. pose proof (soft_length y). cbn [String.length]. lia. }
  cbn [append] in E. subst s. cbn [String.length] in Hl. set (rest := x ++ String "%" (String h (String l y))) in *.
  assert (He : has_escape rest) by (exists x, h, l, y, p, q; auto).
  pose proof (IH rest ltac:(lia) He) as I1.
  assert (Hr : (3 <= String.length rest)%nat) by (unfold rest; rewrite app_length_s; cbn; lia).
  cbn [soft]. destruct rest as [|h' [|l' rest']]; try (cbn in Hr; lia).
  destruct (Ascii.eqb a "%"); [|cbn [String.length] in *; lia].
  destruct (unhex h'); [|cbn [String.length] in *; lia]. destruct (unhex l'); [|cbn [String.length] in *; lia].
  pose proof (soft_length rest'). cbn [String.length]. lia.
Qed.

(** Normalizing keeps what ends a path. *)
Definition ends_path (c : ascii) : Prop := c = "?"%char \/ c = "#"%char.

Lemma hex_pair_app x c y : ends_path c -> hex_pair (x ++ String c y) = hex_pair x.
Proof.
  intros Hc. assert (Hn : is_hex c = false) by (destruct Hc as [->| ->]; reflexivity).
  destruct x as [|a [|b x]]; cbn [append hex_pair]; [destruct y; [reflexivity|now rewrite Hn]|rewrite Hn; apply andb_false_r|reflexivity].
Qed.
Lemma normalize_app x c y : ends_path c -> normalize (x ++ String c y) = normalize x ++ String c (normalize y).
Proof.
  intros Hc. assert (Hk : kept c = true) by (destruct Hc as [->| ->]; reflexivity).
  induction x as [|a x IH]; cbn [append normalize]; [now rewrite Hk|].
  rewrite (hex_pair_app x c y Hc), IH. destruct (kept a || _); reflexivity.
Qed.
Lemma normalize_lacks c s : ends_path c -> lacks c s = true -> lacks c (normalize s) = true.
Proof.
  intros Hc. induction s as [|a s IH]; [reflexivity|]. cbn [lacks normalize]. intros H. apply andb_true_iff in H as [H1 H2].
  specialize (IH H2). destruct (kept a || _); cbn [lacks]; rewrite IH; [now rewrite H1|].
  destruct Hc as [->| ->]; destruct a as [[] [] [] [] [] [] [] []]; vm_compute; reflexivity.
Qed.
Lemma normalize_nul s : lacks nul (normalize s) = true.
Proof.
  induction s as [|a s IH]; [reflexivity|]. cbn [normalize]. destruct (kept a || _) eqn:E; cbn [lacks]; rewrite IH.
  - rewrite andb_true_r. destruct a as [[] [] [] [] [] [] [] []]; try reflexivity. vm_compute in E. discriminate.
  - destruct a as [[] [] [] [] [] [] [] []]; vm_compute; reflexivity.
Qed.

(** A text is cut where its normal form is. *)
Lemma cut_at c s : (lacks c s = true /\ cut_byte c s = (s, None)) \/ exists x y, s = x ++ String c y /\ lacks c x = true /\ cut_byte c s = (x, Some y).
Proof.
  induction s as [|a s IH]; [left; auto|]. cbn [cut_byte lacks]. destruct (Ascii.eqb_spec a c) as [->|Ha].
  - right. exists "", s. auto.
  - destruct IH as [[H ->]|(x & y & -> & H & ->)]; [left; auto|]. right. exists (String a x), y. cbn [append lacks].
    rewrite (proj2 (Ascii.eqb_neq a c) Ha), H. auto.
Qed.
Lemma cut_normal c s : ends_path c -> fst (cut_byte c (normalize s)) = normalize (fst (cut_byte c s)).
Proof.
  intros Hc. destruct (cut_at c s) as [[H ->]|(x & y & -> & H & ->)]; cbn [fst].
  - now rewrite cut_none by (now apply normalize_lacks).
  - rewrite normalize_app by exact Hc. now rewrite cut_lacks by (now apply normalize_lacks).
Qed.

(** The part of a name that stays in the path. *)
Definition in_path (name : string) : string := fst (cut_byte "?" (fst (cut_byte "#" name))).

Lemma cut_static c x s : lacks c x = true -> cut_byte c (x ++ s) = (x ++ fst (cut_byte c s), snd (cut_byte c s)).
Proof.
  induction x as [|a x IH]; cbn [append cut_byte lacks]; [destruct (cut_byte c s); reflexivity|].
  intros H. apply andb_true_iff in H as [H1 H2]. apply negb_true_iff in H1. now rewrite H1, IH.
Qed.

Lemma read_static x s : lacks nul s = true -> lacks "&" x = true -> read_html (x ++ html_escape s) = x ++ s.
Proof.
  intros Hs. unfold read_html. induction x as [|a x IH]; cbn [append lacks]; intros H; [now apply read_back|].
  apply andb_true_iff in H as [H1 H2]. apply negb_true_iff in H1. cbn [read_refs]. rewrite H1. f_equal. now apply IH.
Qed.

Lemma link_leads root name : (root = "/s/" \/ root = "/a/") ->
  exists q, target_of (followed (read_html (root ++ html_escape (normalize name))))
  = match ui_route (root ++ soft (in_path name)) with
    | Some pl => Some (pl, from_query q)
    | None => None
    end /\ (lacks "?" name = true -> lacks "#" name = true -> q = "").
Proof.
  intros Hr. rewrite read_static by (apply normalize_nul || (destruct Hr as [->| ->]; reflexivity)).
  unfold followed, target_of.
  rewrite (cut_static "#") by (destruct Hr as [->| ->]; reflexivity). cbn [fst].
  rewrite cut_normal by (right; reflexivity). rewrite (cut_static "?") by (destruct Hr as [->| ->]; reflexivity).
  rewrite cut_normal by (left; reflexivity). fold (in_path name).
  assert (Hu : unescape false (root ++ normalize (in_path name)) = Some (root ++ soft (in_path name))).
  { destruct Hr as [->| ->]; cbn [append unescape]; cbn [Ascii.eqb Bool.eqb andb]; rewrite normalized; reflexivity. }
  rewrite Hu. eexists. split; [reflexivity|]. intros H1 H2.
  rewrite (cut_none "#" name H2). cbn [fst]. rewrite cut_none by (apply normalize_lacks; [left; reflexivity|exact H1]). reflexivity.
Qed.

Lemma in_path_all name : lacks "?" name = true -> lacks "#" name = true -> in_path name = name.
Proof. intros H1 H2. unfold in_path. rewrite (cut_none "#" name H2). cbn [fst]. now rewrite (cut_none "?" name H1). Qed.
Lemma cut_length c s : (String.length (fst (cut_byte c s)) <= String.length s)%nat /\ (lacks c s = false -> (String.length (fst (cut_byte c s)) < String.length s)%nat).
Proof.
  destruct (cut_at c s) as [[H ->]|(x & y & -> & H & ->)]; cbn [fst].
  - split; [lia|congruence].
  - rewrite app_length_s. cbn. lia.
Qed.
Lemma in_path_length name : (String.length (in_path name) <= String.length name)%nat
  /\ (lacks "?" name = false \/ lacks "#" name = false -> (String.length (in_path name) < String.length name)%nat).
Proof.
  unfold in_path. destruct (cut_length "#" name) as [A B]. destruct (cut_length "?" (fst (cut_byte "#" name))) as [C D].
  split; [lia|]. intros [H|H]; [|specialize (B H); lia].
  destruct (cut_at "#" name) as [[E1 E2]|(x & y & E1 & E2 & E3)].
  - rewrite E2 in *. cbn [fst] in *. specialize (D H). lia.
  - destruct (lacks "#" name) eqn:El; [|specialize (B eq_refl); lia].
    subst name. rewrite lacks_app in El. cbn [lacks] in El. rewrite Ascii.eqb_refl in El. cbn in El. rewrite andb_false_r in El. discriminate.
Qed.

Lemma join_split s : forall cur, join "/" (split_from "/" O cur s) = cur ++ s.
Proof.
  assert (Hne : forall s cur, split_from "/" O cur s <> []).
  { clear s. induction s as [|a s IH]; intros cur; cbn [split_from]; [discriminate|]. destruct (String.prefix _ _); [discriminate|apply IH]. }
  induction s as [|a s IH]; intros cur; cbn [split_from].
  - cbn [join]. now rewrite app_nil_s.
  - destruct (String.prefix "/" (String a s)) eqn:E.
    + cbn [String.length Nat.sub]. specialize (IH ""). specialize (Hne s ""). destruct (split_from "/" 0 "" s) as [|x l] eqn:El; [congruence|].
      change (join "/" (cur :: x :: l)) with (cur ++ "/" ++ join "/" (x :: l)). rewrite IH.
      destruct (prefix_split _ _ E) as (t & Et). cbn [append] in Et |- *. congruence.
    + rewrite IH, app_assoc_s. reflexivity.
Qed.

Lemma route_length p b : ui_route p = Some (InStream b) -> (String.length b + 3 <= String.length p)%nat.
Proof.
  unfold ui_route. destruct (negb _); [discriminate|]. pose proof (join_split p "") as J. fold (split_str "/" p) in J.
  destruct (split_str "/" p) as [|x [|a [|y [|z l]]]]; try discriminate. destruct (String.eqb y "") eqn:Ey; [discriminate|].
  destruct (String.eqb_spec a "s") as [->|]; [|destruct (String.eqb a "a" && _); discriminate].
  intros H. injection H as <-. cbn [append] in J. rewrite <- J. cbn [join]. rewrite !app_length_s. cbn. lia.
Qed.

(** ** Links to pages *)

Lemma escape_normal k t : normalize (query_escape k ++ t) = query_escape k ++ normalize t.
Proof.
  induction k as [|a k IH]; [reflexivity|].
  destruct a as [[] [] [] [] [] [] [] []]; cbn [query_escape]; known unreserved; cbn iota; known Ascii.eqb; cbn iota;
    cbn [append normalize]; known kept; known hexdigit; cbn [orb andb]; try (rewrite IH; reflexivity);
    (match goal with |- context [hex_pair (String ?h (String ?l ?r))] => change (hex_pair (String h (String l r))) with true end;
     match goal with |- context [Ascii.eqb ?x ?y] => change (Ascii.eqb x y) with true end; cbn [andb orb]; rewrite IH; reflexivity).
Qed.
Lemma query_normal kvs : normalize (encode_query kvs) = encode_query kvs.
Proof.
  unfold encode_query.
  assert (Hp : forall (kv : string * string) t, normalize ((query_escape (fst kv) ++ "=" ++ query_escape (snd kv)) ++ t)
    = (query_escape (fst kv) ++ "=" ++ query_escape (snd kv)) ++ normalize t).
  { intros [k v] t. cbn [fst snd]. rewrite !app_assoc_s, escape_normal. f_equal. cbn [append normalize].
    change (kept "=") with true. cbn [orb]. f_equal. apply escape_normal. }
  induction kvs as [|kv kvs IH]; [reflexivity|]. destruct kvs as [|kv2 kvs].
  - cbn [map join]. specialize (Hp kv ""). now rewrite !app_nil_s in Hp.
  - cbn [map] in *. cbn [join] in *. rewrite Hp. f_equal. cbn [append normalize]. change (kept "&") with true. cbn [orb]. f_equal. exact IH.
Qed.

Lemma page_link pl kvs : linkable pl -> kvs <> [] ->
  exists text, with_query (base_uri pl) (encode_query kvs) = Some text
    /\ target_of (followed (read_html (shown_link text))) = Some (pl, from_query (encode_query kvs)).
Proof.
  intros Hl Hk. pose proof (base_plain pl Hl) as Hp. pose proof (ui_base pl Hl) as Hr.
  destruct (plain_facts _ Hp) as (A & B & C & D). set (base := base_uri pl) in *.
  unfold with_query. rewrite (cut_none _ _ B), (cut_none _ _ A), C, D. cbn [negb].
  change (unescape false "") with (Some ""). cbn iota.
  set (p := if all_chars path_valid base then base else path_escape base).
  assert (Hq : lacks "?" p = true /\ lacks "#" p = true /\ unescape false p = Some base).
  { unfold p. destruct (all_chars path_valid base); [auto|]. split; [apply path_lacks; auto|]. split; [apply path_lacks; auto|apply path_back]. }
  destruct Hq as (E & F & G). eexists. split; [reflexivity|]. rewrite app_nil_s.
  unfold shown_link. rewrite read_back by apply normalize_nul.
  change ("?" ++ encode_query kvs)%string with (String "?" (encode_query kvs)).
  rewrite normalize_app by (left; reflexivity). rewrite query_normal. unfold followed. rewrite cut_none.
  2:{ rewrite lacks_app, normalize_lacks by (auto; right; reflexivity). cbn [andb lacks Ascii.eqb Bool.eqb negb].
      rewrite query_lacks by (discriminate || reflexivity). reflexivity. }
  cbn [fst]. unfold target_of. rewrite cut_lacks by (apply normalize_lacks; [left; reflexivity|exact E]).
  rewrite normalized, (soft_plain _ _ G), Hr. reflexivity.
Qed.

(** * Numbers *)

Lemma digits_more u s : forall a, digits a (DecimalString.NilEmpty.string_of_uint u ++ s) = digits (uval a u) s.
Proof.
  induction u; intros a; cbn [DecimalString.NilEmpty.string_of_uint append digits uval]; [reflexivity|..];
    match goal with |- context [digit ?c] => let v := eval vm_compute in (digit c) in change (digit c) with v end; cbn iota;
    rewrite ?N.add_0_r; apply IHu.
Qed.
Lemma digits_dec_more n s : digits 0 (dec n ++ s) = digits n s.
Proof. unfold dec. now rewrite digits_more, uval_to. Qed.

Definition pad_ok (n : N) : bool :=
  match pad3 n with
  | String x (String y (String z "")) =>
      match digit x, digit y, digit z with
      | Some p, Some q, Some r => n =? 100 * p + 10 * q + r
      | _, _, _ => false
      end
  | _ => false
  end.
Lemma pads n : n < 1000 -> pad_ok n = true.
Proof.
  assert (H : forallb (fun k => pad_ok (N.of_nat k)) (seq 0 1000) = true) by (vm_compute; reflexivity).
  intros Hn. rewrite forallb_forall in H. specialize (H (N.to_nat n)). rewrite N2Nat.id in H. apply H. apply in_seq. lia.
Qed.
Lemma pad_reads n : n < 1000 -> all_digits (pad3 n) /\ String.length (pad3 n) = 3%nat
  /\ forall a s, digits a (pad3 n ++ s) = digits (1000 * a + n) s.
Proof.
  intros Hn. pose proof (pads n Hn) as H. unfold pad_ok in H.
  destruct (pad3 n) as [|x [|y [|z [|]]]]; try discriminate.
  destruct (digit x) as [p|] eqn:Ex; [|discriminate]. destruct (digit y) as [q|] eqn:Ey; [|discriminate].
  destruct (digit z) as [r|] eqn:Ez; [|discriminate]. apply N.eqb_eq in H. split; [|split; [reflexivity|]].
  - cbn [all_digits]. repeat split; congruence.
  - intros a s. cbn [append digits]. rewrite Ex, Ey, Ez. f_equal. lia.
Qed.

Definition joined (l : list string) : string := join "" l.
Lemma joined_cons x l : joined (x :: l) = x ++ joined l.
Proof. unfold joined. destruct l; cbn [join]; [now rewrite app_nil_s|reflexivity]. Qed.
Lemma without_lacks c s : lacks c s = true -> without c s = s.
Proof.
  induction s as [|a s IH]; [reflexivity|]. cbn [lacks without]. intros H. apply andb_true_iff in H as [H1 H2]. apply negb_true_iff in H1.
  now rewrite H1, IH.
Qed.
Lemma without_app c x y : without c (x ++ y) = without c x ++ without c y.
Proof. induction x as [|a x IH]; [reflexivity|]. cbn [append without]. destruct (Ascii.eqb a c); cbn [append]; now rewrite IH. Qed.
Lemma without_join l : Forall all_digits l -> without "," (join "," l) = joined l.
Proof.
  intros H. induction H as [|x l Hx Hl IH]; [reflexivity|]. rewrite joined_cons.
  pose proof (lacks_digits "," x eq_refl Hx) as Lx. destruct l as [|y l].
  - cbn [join]. rewrite without_lacks by exact Lx. now rewrite app_nil_s.
  - change (join "," (x :: y :: l)) with (x ++ "," ++ join "," (y :: l)). rewrite !without_app, IH, (without_lacks _ _ Lx). reflexivity.
Qed.

Lemma small_length : forall n, n < 1000 -> (1 <= String.length (dec n) <= 3)%nat.
Proof.
  assert (H : forallb (fun k => (Nat.leb 1 (String.length (dec (N.of_nat k))) && Nat.leb (String.length (dec (N.of_nat k))) 3)%bool) (seq 0 1000) = true)
    by (vm_compute; reflexivity).
  intros n Hn. rewrite forallb_forall in H. specialize (H (N.to_nat n)). rewrite N2Nat.id in H.
  specialize (H ltac:(apply in_seq; lia)). apply andb_true_iff in H as [H1 H2]. apply Nat.leb_le in H1, H2. lia.
Qed.

Definition triple (g : string) : Prop := all_digits g /\ String.length g = 3%nat.
Lemma parts_ok fuel : forall v acc, v < 1000 * 1000 ^ N.of_nat fuel -> Forall triple acc ->
  exists v0 others, comma_parts fuel v acc = dec v0 :: others /\ v0 < 1000 /\ Forall triple others
    /\ digits 0 (dec v0 ++ joined others) = digits v (joined acc).
Proof.
  induction fuel as [|fuel IH]; intros v acc Hv Ha; cbn [comma_parts].
  - exists v, acc. cbn in Hv. rewrite digits_dec_more. split; [reflexivity|]. split; [lia|auto].
  - destruct (N.ltb_spec 999 v).
    + assert (Hm : v mod 1000 < 1000) by (apply N.mod_lt; discriminate). destruct (pad_reads _ Hm) as (A & B & C).
      destruct (IH (v / 1000) (pad3 (v mod 1000) :: acc)) as (v0 & others & E & H0 & Ho & Hd).
      * apply N.div_lt_upper_bound; [discriminate|]. replace (N.of_nat (S fuel)) with (N.succ (N.of_nat fuel)) in Hv by lia.
        rewrite N.pow_succ_r' in Hv. lia.
      * constructor; [split; assumption|exact Ha].
      * exists v0, others. split; [exact E|]. split; [exact H0|]. split; [exact Ho|]. rewrite Hd, joined_cons, C. f_equal.
        pose proof (N.div_mod v 1000 ltac:(discriminate)). lia.
    + exists v, acc. rewrite digits_dec_more. split; [reflexivity|]. split; [lia|auto].
Qed.

Lemma comma_ok v : v < 2 ^ 64 -> grouped (comma v) /\ digits 0 (without "," (comma v)) = (v, "") /\ without "," (comma v) <> "".
Proof.
  intros Hv. unfold comma. destruct (parts_ok 6 v []) as (v0 & others & E & H0 & Ho & Hd).
  { eapply N.lt_trans; [exact Hv|]. vm_compute. reflexivity. }
  { constructor. }
  rewrite E. split; [|rewrite without_join].
  - exists (dec v0), others. split; [reflexivity|]. split; [apply dec_all|]. split; [now apply small_length|exact Ho].
  - rewrite joined_cons, Hd. split; [reflexivity|]. destruct (dec_head v0) as (c & r & -> & _). discriminate.
  - constructor; [apply dec_all|]. eapply Forall_impl; [|exact Ho]. intros g [Hg _]. exact Hg.
Qed.

(** * The live page *)

Lemma trim10 (l : list record) r : (length l <= 10)%nat ->
  (if 10 <? N.of_nat (length (r :: l)) then removelast (r :: l) else r :: l) = firstn 10 (r :: l).
Proof.
  intros H. destruct (N.ltb_spec 10 (N.of_nat (length (r :: l)))) as [Hl|Hl]; cbn [length] in Hl.
  - rewrite removelast_firstn_len. f_equal. cbn [length pred]. lia.
  - rewrite firstn_all2; [reflexivity|cbn [length]; lia].
Qed.

Lemma firstn_again {A} n (a b : list A) : firstn n (a ++ firstn n b)%list = firstn n (a ++ b)%list.
Proof. rewrite (firstn_app n a (firstn n b)), (firstn_app n a b), firstn_firstn. f_equal. f_equal. lia. Qed.

Lemma live_grows ms : forall s, v_was s = false -> (length (v_records s) <= 10)%nat ->
  v_records (live_run s (map (fun m => Arrived (fst m) (snd m)) ms)) = firstn 10 (rev (map fst ms) ++ v_records s)
  /\ v_total (live_run s (map (fun m => Arrived (fst m) (snd m)) ms)) = last (map snd ms) (v_total s)
  /\ v_was (live_run s (map (fun m => Arrived (fst m) (snd m)) ms)) = false.
Proof.
  induction ms as [|[r t] ms IH]; intros s Hw Hl; cbn [map fst snd rev app last].
  - unfold live_run. cbn [fold_left]. rewrite firstn_all2 by exact Hl. auto.
  - unfold live_run. cbn [fold_left live_step]. rewrite Hw. change (fold_left live_step) with (fun es s => live_run s es).
    cbv beta. rewrite (trim10 (v_records s) r Hl).
    destruct (IH (mk_live (firstn 10 (r :: v_records s)) false t) eq_refl) as (A & B & C).
    { cbn [v_records]. rewrite firstn_length. lia. }
    cbn [v_records v_total] in A, B. rewrite A, B, C. split; [|split; [|reflexivity]].
    + rewrite firstn_again, <- app_assoc. reflexivity.
    + destruct (map snd ms) as [|x l] eqn:E; [reflexivity|]. clear. revert x t. induction l as [|y l IH']; intros x t; [reflexivity|]. exact (IH' y t).
Qed.
Lemma live_bound es : forall s, (length (v_records s) <= 10)%nat -> (length (v_records (live_run s es)) <= 10)%nat.
Proof.
  induction es as [|e es IH]; intros s H; [exact H|]. unfold live_run. cbn [fold_left]. apply IH. destruct e as [r t|]; cbn [live_step v_records]; [|exact H].
  rewrite trim10; [rewrite firstn_length; lia|]. destruct (v_was s); [cbn; lia|exact H].
Qed.
