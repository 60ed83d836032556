(** Proofs about events with personal data. *)
From Coq Require Import PeanoNat ZArith.
From Verif Require Import Base Text DecText JsonText Encodings Crypto Prog KeyStores KeyProofs Events EventsSpec.
From Verif Require Json JsonSpec JsonProofs.
Open Scope string_scope.

(** * Numbers *)

Lemma itoa_atoi z : (min_int <= z <= max_int)%Z -> atoi (itoa z) = Some z.
Proof.
  intros H. unfold atoi, itoa, print_int.
  assert (D : forall n, exists c r, dec n = String c r /\ c <> "-"%char /\ c <> "+"%char).
  { intros n. destruct (dec_head n) as (c & r & E & Hd). exists c, r. split; [exact E|]. split; intros ->; vm_compute in Hd; congruence. }
  assert (G : forall n, digits 0 (dec n) = (n, "")).
  { intros n. pose proof (digits_dec n "" ltac:(discriminate)) as E. rewrite app_nil_s in E. exact E. }
  assert (B : ((min_int <=? z) && (z <=? max_int))%Z = true) by (apply andb_true_iff; split; apply Z.leb_le; lia).
  destruct z as [|q|q].
  - vm_compute. reflexivity.
  - destruct (D (Z.to_N (Zpos q))) as (c & r & E & N1 & N2). specialize (G (Z.to_N (Zpos q))). rewrite E in G |- *.
    assert (X : (let '(neg, r0) := match String c r with String "-" r0 => (true, r0) | String "+" r0 => (false, r0) | _ => (false, String c r) end in (neg, r0)) = (false, String c r)).
    { clear -N1 N2. destruct c as [[] [] [] [] [] [] [] []]; try reflexivity; exfalso; [apply N2|apply N1]; reflexivity. }
    destruct (match String c r with String "-" r0 => (true, r0) | String "+" r0 => (false, r0) | _ => (false, String c r) end) as [neg r0].
    injection X as -> ->. rewrite G. cbn iota beta. replace (Z.of_N (Z.to_N (Z.pos q))) with (Z.pos q) by lia. rewrite B. reflexivity.
  - cbn [append]. specialize (G (Npos q)). destruct (D (Npos q)) as (c & r & E & _). rewrite E in *. rewrite G. cbn iota beta.
    replace (- Z.of_N (N.pos q))%Z with (Z.neg q) by lia. rewrite B. reflexivity.
Qed.

Lemma Forall2_weaken {X Y} (P Q : X -> Y -> Prop) l m : (forall x y, P x y -> Q x y) -> Forall2 P l m -> Forall2 Q l m.
Proof. intros H F. induction F; constructor; auto. Qed.
Lemma Forall2_len {X Y} (P : X -> Y -> Prop) l m : Forall2 P l m -> length l = length m.
Proof. intros F. induction F; cbn; congruence. Qed.
Lemma app_inj_len {X} (a b c d : list X) : length a = length c -> (a ++ b = c ++ d)%list -> a = c /\ b = d.
Proof.
  revert c. induction a as [|x a IH]; intros [|y c] L E; try discriminate; [auto|]. cbn in *. injection E as -> E. injection L as L. destruct (IH _ L E) as [-> ->]. auto.
Qed.
Lemma combine_app {X Y} (a b : list X) (c d : list Y) : length a = length c -> combine (a ++ b) (c ++ d) = (combine a c ++ combine b d)%list.
Proof. revert c. induction a as [|x a IH]; intros [|y c] L; try discriminate; [reflexivity|]. cbn. rewrite IH by (cbn in L; congruence). reflexivity. Qed.

(** * Rows *)

Lemma assign_map (g : string -> value) l : forall e f, entry f (assign l (map g l) e) = if in_dec string_dec f l then Some (g f) else entry f e.
Proof.
  unfold assign. induction l as [|a l IH]; intros e f; [reflexivity|]. cbn [map combine fold_left fst snd]. rewrite IH, entry_enter.
  destruct (in_dec string_dec f l) as [H|H], (in_dec string_dec f (a :: l)) as [H'|H']; auto.
  - exfalso. apply H'. right. exact H.
  - destruct (String.eqb_spec a f) as [->|N]; [reflexivity|]. destruct H' as [H'|H']; congruence.
  - destruct (String.eqb_spec a f) as [->|N]; [exfalso; apply H'; left; reflexivity|reflexivity].
Qed.
Lemma fold_assign {X} (g : X -> string) (v : value) l e : fold_left (fun e x => enter (g x) v e) l e = assign (map g l) (map (fun _ => v) (map g l)) e.
Proof. unfold assign. revert e. induction l as [|x l IH]; intros e; [reflexivity|]. cbn. apply IH. Qed.
Lemma as_map {X} (d : X) l : forall c, NoDup l -> length c = length l -> exists g : string -> X, c = map g l.
Proof.
  induction l as [|a l IH]; intros c ND L; destruct c as [|x c]; try discriminate.
  - exists (fun _ => d). reflexivity.
  - inversion ND as [|? ? Na ND']; subst. injection L as L. destruct (IH c ND' L) as [g ->].
    exists (fun f => if String.eqb f a then x else g f). cbn. rewrite String.eqb_refl. f_equal.
    apply map_ext_in. intros f Hf. destruct (String.eqb_spec f a) as [->|]; [contradiction|reflexivity].
Qed.
Lemma redact_entry p e f : entry f (redact p e) =
  if in_dec string_dec f (sources p) then Some (VInt 0) else if in_dec string_dec f (texts p) then Some (VText "") else entry f e.
Proof.
  unfold redact. rewrite (fold_assign snd), assign_map. fold (sources p). destruct (in_dec string_dec f (sources p)); [reflexivity|].
  rewrite (fold_assign (fun x : string => x)), map_id, assign_map. reflexivity.
Qed.

(** * The generated methods *)

Section Methods.
Context {S F : Type}.
Variable srv : F -> S -> ask -> S * reply.
Variable opens : S -> string -> string -> string -> Prop.
Hypothesis Ht : trusty srv opens.

Lemma seal_each p e x done items : forall fs d s got s' e', Forall (fun it => snd it = false) items ->
  finish srv fs d s (each p e (Seal x) items got done) = (s', (Ended, e')) ->
  exists cs, length cs = length items /\ e' = done (rev got ++ map VText cs)%list
    /\ Forall2 (fun c it => opens s' x c (fst it)) cs items
    /\ forall x c t, opens s x c t -> opens s' x c t.
Proof.
  induction items as [|[t b] items IH]; intros fs d s got s' e' Hf E.
  - cbn in E. injection E as <- <-. exists []. cbn. rewrite app_nil_r. repeat split; auto.
  - inversion Hf as [|? ? Hb Hf']; subst. cbn in Hb. subst b. cbn [each finish] in E.
    destruct (srv (hd d fs) s (Seal x t)) as [s1 a] eqn:Es. destruct a as [c| | |]; try (cbn in E; discriminate).
    destruct (IH _ _ _ _ _ _ Hf' E) as (cs & L & Ee & Fo & K). exists (c :: cs). cbn. split; [congruence|]. split; [|split].
    + rewrite Ee. cbn. rewrite <- app_assoc. reflexivity.
    + constructor; [|exact Fo]. apply K. exact (seals _ _ Ht _ _ _ _ _ _ Es).
    + intros y c' t' H. apply K. exact (stays _ _ Ht _ _ _ _ _ _ _ _ H Es).
Qed.

(** What an answer becomes. *)
Definition become (b : bool) (t : string) (v : value) : Prop := if b then exists z, atoi t = Some z /\ v = VInt z else v = VText t.
Lemma open_each p e x done items : forall fs d s got ts vs,
  Forall2 (fun it t => opens s x (fst it) t) items ts ->
  Forall2 (fun bt v => become (fst bt) (snd bt) v) (combine (map snd items) ts) vs ->
  exists s', finish srv fs d s (each p e (Open x) items got done) = (s', (Ended, done (rev got ++ vs)%list))
    /\ forall x c t, opens s x c t -> opens s' x c t.
Proof.
  induction items as [|[c b] items IH]; intros fs d s got ts vs Ho Hb; inversion Ho as [|? t ? ts' Hc Ho']; subst.
  - cbn in Hb. inversion Hb; subst. cbn. rewrite app_nil_r. exists s. auto.
  - cbn in Hb. inversion Hb as [|? v ? vs' Hv Hb']; subst. cbn in Hv, Hc. cbn [each finish].
    destruct (srv (hd d fs) s (Open x c)) as [s1 a] eqn:Es. pose proof (opened _ _ Ht (hd d fs) _ _ _ _ Hc) as Ea. rewrite Es in Ea. cbn in Ea. subst a.
    assert (Ho1 : Forall2 (fun it t => opens s1 x (fst it) t) items ts').
    { eapply Forall2_weaken; [|exact Ho']. intros it t' H. exact (stays _ _ Ht _ _ _ _ _ _ _ _ H Es). }
    assert (Go : exists s', finish srv (tl fs) d s1 (each p e (Open x) items (v :: got) done) = (s', (Ended, done (rev got ++ v :: vs')%list))
      /\ forall x c t, opens s x c t -> opens s' x c t).
    { destruct (IH (tl fs) d s1 (v :: got) ts' vs' Ho1 Hb') as (s' & E & K). exists s'. split.
      - rewrite E. cbn. rewrite <- app_assoc. reflexivity.
      - intros y c' t' H. apply K. exact (stays _ _ Ht _ _ _ _ _ _ _ _ H Es). }
    destruct b; cbn in Hv.
    + destruct Hv as (z & Ez & ->). rewrite Ez. exact Go.
    + subst v. exact Go.
Qed.

(** An event and how it is encrypted. *)
Notation encrypted := (sealed opens).
Lemma encrypted_keep s s' p e e' : (forall x c t, opens s x c t -> opens s' x c t) -> encrypted s p e e' -> encrypted s' p e e'.
Proof.
  intros K (H1 & H2 & H3 & H4). split; [exact H1|]. split; [|split; [|exact H4]].
  - intros f Hf. destruct (H2 f Hf) as (c & E & O). eauto.
  - intros t Hi. destruct (H3 t Hi) as (c & E & O). eauto.
Qed.

Lemma NoDup_app_r {X} (a b : list X) : NoDup (a ++ b) -> NoDup b.
Proof. induction a as [|x a IH]; cbn; [auto|]. intros H. inversion H. auto. Qed.
Lemma NoDup_app_l {X} (a b : list X) : NoDup (a ++ b) -> NoDup a.
Proof. induction a as [|x a IH]; cbn; [constructor|]. intros H. inversion H as [|? ? N ND]; subst. constructor; [|auto]. intros C. apply N, in_or_app. auto. Qed.
Lemma NoDup_app_disjoint {X} (a b : list X) x : NoDup (a ++ b) -> In x a -> In x b -> False.
Proof.
  induction a as [|y a IH]; cbn; [contradiction|]. intros H [->|Ha] Hb; inversion H as [|? ? N ND]; subst; [apply N, in_or_app; auto|auto].
Qed.

Lemma apart_facts p : apart p -> NoDup (texts p) /\ NoDup (sources p) /\ NoDup (targets p)
  /\ (forall f, In f (texts p) -> ~ In f (sources p) /\ ~ In f (targets p)) /\ (forall f, In f (sources p) -> ~ In f (targets p))
  /\ ~ In (subject_field p) (texts p ++ sources p ++ targets p).
Proof.
  intros H. inversion H as [|? ? N ND]; subst. pose proof (NoDup_app_r _ _ ND) as ND2.
  split; [exact (NoDup_app_l _ _ ND)|]. split; [exact (NoDup_app_l _ _ ND2)|]. split; [exact (NoDup_app_r _ _ ND2)|]. split; [|split; [|exact N]].
  - intros f Hf. split; intros C; apply (NoDup_app_disjoint _ _ f ND Hf), in_or_app; auto.
  - intros f Hf C. exact (NoDup_app_disjoint _ _ f ND2 Hf C).
Qed.

Lemma encrypt_ok p e fs d s s' e' : apart p ->
  finish srv fs d s (gen_encrypt p e) = (s', (Ended, e')) -> encrypted s' p e e' /\ forall x c t, opens s x c t -> opens s' x c t.
Proof.
  intros Ha E. destruct (apart_facts p Ha) as (N1 & N2 & N3 & D1 & D2 & _). unfold gen_encrypt in E.
  set (x := text_of e (subject_field p)) in *.
  apply seal_each in E.
  2:{ apply Forall_app. split; apply Forall_forall; intros it H; apply in_map_iff in H; destruct H as (y & <- & _); reflexivity. }
  destruct E as (cs & L & Ee & Fo & K). cbn [rev app] in Ee. split; [|exact K].
  rewrite app_length, !map_length in L.
  pose proof (firstn_skipn (length (texts p)) cs) as Ecs.
  assert (L1 : length (firstn (length (texts p)) cs) = length (texts p)) by (rewrite firstn_length; lia).
  assert (L2 : length (skipn (length (texts p)) cs) = length (serialized p)) by (rewrite skipn_length; lia).
  rewrite firstn_map, skipn_map in Ee.
  set (c1 := firstn (length (texts p)) cs) in *. set (c2 := skipn (length (texts p)) cs) in *.
  assert (Ft : Forall2 (fun c f => opens s' x c (text_of e f)) c1 (texts p) /\ Forall2 (fun c t => opens s' x c (itoa (int_of e (snd t)))) c2 (serialized p)).
  { rewrite <- Ecs in Fo. apply Forall2_app_inv_l in Fo. destruct Fo as (i1 & i2 & F1 & F2 & Ei).
    assert (Li : length i1 = length (map (fun f => (text_of e f, false)) (texts p))) by (rewrite map_length, <- (Forall2_len _ _ _ F1); exact L1).
    apply app_inj_len in Ei; [|symmetry; exact Li]. destruct Ei as [<- <-]. split.
    - clear -F1. revert F1. generalize c1. induction (texts p) as [|f l IH]; intros c F1; inversion F1; subst; constructor; auto.
    - clear -F2. revert F2. generalize c2. induction (serialized p) as [|f l IH]; intros c F2; inversion F2; subst; constructor; auto. }
  destruct Ft as [F1 F2].
  assert (L2' : length c2 = length (targets p)) by (unfold targets; rewrite map_length; exact L2).
  destruct (as_map "" _ _ N1 L1) as [g1 G1]. destruct (as_map "" _ _ N3 L2') as [g2 G2].
  rewrite (fold_assign snd) in Ee. fold (sources p) in Ee. fold (targets p) in Ee.
  rewrite G1, G2, !map_map in Ee.
  assert (En : forall f, entry f e' = if in_dec string_dec f (targets p) then Some (VText (g2 f))
     else if in_dec string_dec f (sources p) then Some (VInt 0) else if in_dec string_dec f (texts p) then Some (VText (g1 f)) else entry f e).
  { intros f. rewrite Ee, (assign_map (fun y => VText (g2 y))), (assign_map (fun _ => VInt 0)), (assign_map (fun y => VText (g1 y))). reflexivity. }
  split; [|split; [|split]].
  - intros f Hf. rewrite En. destruct (in_dec string_dec f (targets p)) as [H|_]; [exfalso; apply Hf; rewrite !in_app_iff; auto|].
    destruct (in_dec string_dec f (sources p)) as [H|_]; [exfalso; apply Hf; rewrite !in_app_iff; auto|].
    destruct (in_dec string_dec f (texts p)) as [H|_]; [exfalso; apply Hf; rewrite !in_app_iff; auto|]. reflexivity.
  - intros f Hf. exists (g1 f). rewrite En. destruct (D1 f Hf). destruct (in_dec string_dec f (targets p)); [contradiction|].
    destruct (in_dec string_dec f (sources p)); [contradiction|]. destruct (in_dec string_dec f (texts p)); [|contradiction]. split; [reflexivity|].
    rewrite G1 in F1. clear -F1 Hf. induction (texts p) as [|a l IH]; [contradiction|]. cbn in F1. inversion F1; subst. destruct Hf as [->|Hf]; [assumption|auto].
  - intros t Hi. exists (g2 (fst t)). rewrite En. assert (Hf : In (fst t) (targets p)) by (apply in_map; exact Hi).
    destruct (in_dec string_dec (fst t) (targets p)); [|contradiction]. split; [reflexivity|].
    rewrite G2 in F2. unfold targets in F2. clear -F2 Hi. induction (serialized p) as [|a l IH]; [contradiction|]. cbn in F2. inversion F2; subst. destruct Hi as [->|Hi]; [assumption|auto].
  - intros f Hf. rewrite En. pose proof (D2 f Hf). destruct (in_dec string_dec f (targets p)); [contradiction|]. destruct (in_dec string_dec f (sources p)); [reflexivity|contradiction].
Qed.

Lemma decrypt_ok p e e' fs d s : apart p -> typed p e -> encrypted s p e e' ->
  exists s' e2, finish srv fs d s (gen_decrypt p e') = (s', (Ended, e2))
    /\ (forall f, entry f e2 = if in_dec string_dec f (targets p) then Some (VText "") else entry f e)
    /\ forall x c t, opens s x c t -> opens s' x c t.
Proof.
  intros Ha [T1 T2] (H1 & H2 & H3 & H4). destruct (apart_facts p Ha) as (N1 & N2 & N3 & D1 & D2 & Ns). unfold gen_decrypt.
  assert (Ex : text_of e' (subject_field p) = text_of e (subject_field p)).
  { unfold text_of. rewrite (H1 (subject_field p) Ns). reflexivity. }
  rewrite Ex. set (x := text_of e (subject_field p)) in *.
  set (items := (map _ (texts p) ++ map _ (serialized p))%list).
  set (done := fun vs : list value => _).
  destruct (open_each p e' x done items fs d s [] (map (text_of e) (texts p) ++ map (fun t => itoa (int_of e (snd t))) (serialized p))%list
    (map (fun f => VText (text_of e f)) (texts p) ++ map (fun t => VInt (int_of e (snd t))) (serialized p))%list) as (s' & E & K).
  - apply Forall2_app.
    + assert (H2' : forall f, In f (texts p) -> opens s x (text_of e' f) (text_of e f)).
      { intros f Hf. destruct (H2 f Hf) as (c & Ec & O). unfold text_of at 1. rewrite Ec. exact O. }
      clear -H2'. induction (texts p) as [|a l IH]; cbn; constructor; [apply H2'; left; reflexivity|apply IH; intros; apply H2'; right; assumption].
    + assert (H3' : forall t, In t (serialized p) -> opens s x (text_of e' (fst t)) (itoa (int_of e (snd t)))).
      { intros t Hi. destruct (H3 t Hi) as (c & Ec & O). unfold text_of. rewrite Ec. exact O. }
      clear -H3'. induction (serialized p) as [|a l IH]; cbn; constructor; [apply H3'; left; reflexivity|apply IH; intros; apply H3'; right; assumption].
  - unfold items. rewrite map_app, !map_map. cbn [snd].
    rewrite combine_app by (rewrite !map_length; reflexivity). apply Forall2_app.
    + clear. induction (texts p) as [|a l IH]; cbn; constructor; [reflexivity|exact IH].
    + assert (T2' : forall t, In t (serialized p) -> atoi (itoa (int_of e (snd t))) = Some (int_of e (snd t))).
      { intros t Hi. apply itoa_atoi. destruct (T2 (snd t)) as (z & Ez & Hz); [apply in_map; exact Hi|]. unfold int_of. rewrite Ez. exact Hz. }
      clear -T2'. induction (serialized p) as [|a l IH]; cbn; constructor; [exists (int_of e (snd a)); split; [apply T2'; left; reflexivity|reflexivity]|apply IH; intros; apply T2'; right; assumption].
  - exists s'. eexists. split; [exact E|]. split; [|exact K]. intros f. unfold done. cbn [rev app].
    rewrite (fold_assign fst). fold (targets p). rewrite (assign_map (fun _ => VText "")). destruct (in_dec string_dec f (targets p)) as [|Nt]; [reflexivity|].
    rewrite firstn_app, skipn_app, !map_length, Nat.sub_diag, firstn_O, app_nil_r, skipn_O.
    rewrite firstn_all2 by (rewrite map_length; lia). rewrite skipn_all2 by (rewrite map_length; lia). cbn [app].
    assert (Em : map (fun t => VInt (int_of e (snd t))) (serialized p) = map (fun y => VInt (int_of e y)) (sources p)) by (unfold sources; rewrite map_map; reflexivity).
    rewrite Em. fold (sources p). rewrite (assign_map (fun y => VInt (int_of e y))).
    destruct (in_dec string_dec f (sources p)) as [Hs|Hs].
    { destruct (T2 f Hs) as (z & Ez & _). unfold int_of. rewrite Ez. reflexivity. }
    rewrite (assign_map (fun y => VText (text_of e y))). destruct (in_dec string_dec f (texts p)) as [Hx|Hx].
    { destruct (T1 f Hx) as (z & Ez). unfold text_of. rewrite Ez. reflexivity. }
    symmetry. apply H1. rewrite !in_app_iff. tauto.
Qed.

Lemma each_unhappy p e q items done : forall fs d s got s' r e', finish srv fs d s (each p e q items got done) = (s', (r, e')) ->
  match r with Ended => True | EndedDeleted => e' = redact p e | _ => e' = e end.
Proof.
  induction items as [|[t b] items IH]; intros fs d s got s' r e' E; cbn [each finish] in E.
  - injection E as <- <- <-. exact I.
  - destruct (srv (hd d fs) s (q t)) as [s1 a]. destruct a as [c| | |]; cbn in E; try (injection E as <- <- <-; reflexivity).
    destruct b; [destruct (atoi c); [|cbn in E; injection E as <- <- <-; reflexivity]|]; eapply IH; exact E.
Qed.
Lemma each_gone gone p e q items done : deletes srv gone -> (forall t, subject_of (q t) = subject_of (q "")) ->
  forall fs d s got, gone s (subject_of (q "")) -> items <> [] ->
  snd (finish srv fs d s (each p e q items got done)) = (EndedDeleted, redact p e).
Proof.
  intros Hd Hq fs d s got G N. destruct items as [|[t b] items]; [congruence|]. cbn [each finish].
  destruct (srv (hd d fs) s (q t)) as [s1 a] eqn:Es. rewrite <- (Hq t) in G. pose proof (refuses _ _ Hd (hd d fs) _ _ G) as R. rewrite Es in R. cbn in R. subst a. reflexivity.
Qed.

(** * The encrypting store *)
Variable dflt : F.
Notation encrypt_all := (Events.encrypt_all srv dflt).
Definition grown (s s' : S) : Prop := forall x c t, opens s x c t -> opens s' x c t.
Notation readable := (held_as opens).
Lemma readable_keep s s' h e : grown s s' -> readable s h e -> readable s' h e.
Proof. intros G. unfold held_as. destruct (fst h) as [p|]; [|auto]. intros (A & B & C & D). repeat split; try apply A; try apply B; auto; eapply encrypted_keep; eauto; apply D. Qed.

Lemma each_grown p e q items done : forall fs d s got s' r, finish srv fs d s (each p e q items got done) = (s', r) -> grown s s'.
Proof.
  induction items as [|[t b] items IH]; intros fs d s got s' r E; cbn [each finish] in E.
  - injection E as <- <-. intros x c t H. exact H.
  - destruct (srv (hd d fs) s (q t)) as [s1 a] eqn:Es.
    assert (G1 : grown s s1) by (intros x c t' H; exact (stays _ _ Ht _ _ _ _ _ _ _ _ H Es)).
    assert (G2 : s1 = s' -> grown s s') by (intros <-; exact G1).
    destruct a as [c| | |]; cbn in E; try (apply G2; congruence).
    destruct b; [destruct (atoi c); [|apply G2; cbn in E; congruence]|]; apply IH in E; intros x c' t' H; apply E, G1, H.
Qed.

Lemma event_set n v l m : event_at m (set_event n v l) = if Nat.eqb n m then Some v else event_at m l.
Proof. reflexivity. Qed.

Definition originals {G} (start : list (nat * event)) (evs : list (nat * G)) : list row :=
  flat_map (fun n => match event_at (fst n) start with Some v => [body v] | None => [] end) evs.

Lemma encrypt_all_ok evs : forall sc sc' r, NoDup (map fst evs) ->
  (forall n v, In n (map fst evs) -> event_at n (events sc) = Some v -> proper v) ->
  encrypt_all sc evs = (sc', r) ->
  grown (keys sc) (keys sc') /\ held sc' = held sc
  /\ (forall n, ~ In n (map fst evs) -> event_at n (events sc') = event_at n (events sc))
  /\ (r = Ended -> Forall2 (readable (keys sc')) (rows_of sc' evs) (originals (events sc) evs)).
Proof.
  induction evs as [|[n fs] evs IH]; intros sc sc' r ND P E.
  - cbn in E. injection E as <- <-. cbn. repeat split; auto. intros x c t H; exact H.
  - cbn [map fst] in ND. inversion ND as [|? ? Nn ND']; subst. cbn [Events.encrypt_all] in E.
    destruct (event_at n (events sc)) as [v|] eqn:Ev.
    + destruct (encrypt_event srv dflt fs (keys sc) v) as [s1 [r1 v1]] eqn:Ee.
      assert (One : grown (keys sc) s1 /\ (r1 = Ended -> readable s1 (kind v1, body v1) (body v))).
      { pose proof (P n v (or_introl eq_refl) Ev) as Pv. unfold encrypt_event in Ee. unfold proper in Pv.
        destruct (kind v) as [p|] eqn:Ek.
        - destruct Pv as (Pp & Pa & Pt & Pc). rewrite Pp in Ee.
          destruct (finish srv fs dflt (keys sc) (gen_encrypt p (body v))) as [s2 [r2 e2]] eqn:Ef. cbn in Ee. injection Ee as <- <- <-. split.
          + unfold gen_encrypt in Ef. eapply each_grown. exact Ef.
          + intros ->. apply (encrypt_ok p _ _ _ _ _ _ Pa) in Ef. unfold held_as. cbn. tauto.
        - assert (X : (s1, (r1, v1)) = (keys sc, (Ended, v))) by (destruct (pointer v); congruence). injection X as -> -> ->. split; [intros x c t H; exact H|].
          intros _. unfold held_as. cbn [fst snd]. rewrite Ek. intros f. reflexivity. }
      destruct One as [G1 R1].
      set (sc1 := mk_scene s1 (set_event n v1 (events sc)) (held sc)) in *.
      assert (Go : r1 <> Ended -> (sc1, r1) = (sc', r) -> grown (keys sc) (keys sc') /\ held sc' = held sc
         /\ (forall m, ~ In m (n :: map fst evs) -> event_at m (events sc') = event_at m (events sc))
         /\ (r = Ended -> Forall2 (readable (keys sc')) (rows_of sc' ((n, fs) :: evs)) (originals (events sc) ((n, fs) :: evs)))).
      { intros Nr X. injection X as <- <-. split; [exact G1|]. split; [reflexivity|]. split; [|congruence].
        intros m Hm. cbn [events sc1]. rewrite event_set. destruct (Nat.eqb_spec n m) as [->|]; [exfalso; apply Hm; left; reflexivity|reflexivity]. }
      destruct r1; try (apply Go; [discriminate|exact E]). clear Go.
      apply IH in E; [|exact ND'|].
      2:{ intros m w Hm Hw. cbn [events sc1] in Hw. rewrite event_set in Hw. destruct (Nat.eqb_spec n m) as [->|]; [contradiction|]. exact (P m w (or_intror Hm) Hw). }
      destruct E as (G2 & Hh & Hev & R2). cbn [keys sc1 held] in *.
      split; [intros x c t H; apply G2, G1, H|]. split; [exact Hh|]. split.
      * intros m Hm. rewrite Hev by (intros C; apply Hm; right; exact C). cbn [events sc1]. rewrite event_set. destruct (Nat.eqb_spec n m) as [->|]; [exfalso; apply Hm; left; reflexivity|reflexivity].
      * intros Hr. unfold rows_of, originals. cbn [flat_map fst]. rewrite Ev, (Hev n Nn). cbn [events sc1]. rewrite event_set, Nat.eqb_refl. cbn [app].
        constructor; [eapply readable_keep; [exact G2|apply R1; reflexivity]|]. specialize (R2 Hr). unfold rows_of, originals in R2. cbn [events sc1] in R2.
        assert (X : flat_map (fun y : nat * list F => match event_at (fst y) (set_event n v1 (events sc)) with Some v0 => [body v0] | None => [] end) evs
                  = flat_map (fun y : nat * list F => match event_at (fst y) (events sc) with Some v0 => [body v0] | None => [] end) evs).
        { clear -Nn. induction evs as [|y evs IH]; [reflexivity|]. cbn [flat_map]. rewrite event_set. destruct (Nat.eqb_spec n (fst y)) as [->|]; [exfalso; apply Nn; left; reflexivity|].
          rewrite IH; [reflexivity|]. intros C. apply Nn. right. exact C. }
        rewrite <- X. exact R2.
    + apply IH in E; [|exact ND'|intros m w Hm Hw; exact (P m w (or_intror Hm) Hw)]. destruct E as (G2 & Hh & Hev & R2).
      split; [exact G2|]. split; [exact Hh|]. split; [intros m Hm; apply Hev; intros C; apply Hm; right; exact C|].
      intros Hr. unfold rows_of, originals. cbn [flat_map fst]. rewrite Ev, (Hev n Nn), Ev. exact (R2 Hr).
Qed.

Lemma saves_ok start l : forall sc exp, Forall2 (readable (keys sc)) (held sc) exp -> each_once l ->
  (forall n v, event_at n start = Some v -> proper v) ->
  (forall n, In n (flat_map (fun x => map fst (fst x)) l) -> event_at n (events sc) = event_at n start) ->
  forall sc' rs, saves srv dflt sc l = (sc', rs) ->
  Forall2 (readable (keys sc')) (held sc') (exp ++ expected start l rs).
Proof.
  induction l as [|[evs f] l IH]; intros sc exp Hh Ho P Hs sc' rs E.
  - cbn in E. injection E as <- <-. cbn. rewrite app_nil_r. exact Hh.
  - cbn [saves] in E. destruct (save srv dflt sc (evs, f)) as [sc1 r] eqn:E1. destruct (saves srv dflt sc1 l) as [sc2 rs'] eqn:E2. injection E as <- <-.
    unfold each_once in Ho. cbn [flat_map fst] in Ho. pose proof (NoDup_app_l _ _ Ho) as ND1.
    unfold save in E1. destruct (encrypt_all sc evs) as [sc0 r0] eqn:E0.
    assert (S0 : forall n, In n (map fst evs) -> event_at n (events sc) = event_at n start) by (intros n Hn; apply Hs; cbn [flat_map fst]; apply in_or_app; auto).
    destruct (encrypt_all_ok evs sc sc0 r0 ND1) as (G & H1 & H2 & H3); [intros n v Hn Hv; rewrite S0 in Hv by exact Hn; exact (P _ _ Hv)|exact E0|].
    assert (Or : originals (events sc) evs = originals start evs).
    { clear -S0. unfold originals. induction evs as [|y evs IH]; [reflexivity|]. cbn [flat_map]. rewrite S0 by (left; reflexivity). rewrite IH; [reflexivity|]. intros n Hn. apply S0. right. exact Hn. }
    assert (Old : Forall2 (readable (keys sc0)) (held sc0) exp).
    { rewrite H1. eapply Forall2_weaken; [|exact Hh]. intros h e. apply readable_keep. exact G. }
    assert (Ev1 : forall sc3 : scene (S:=S), events sc3 = events sc0 -> forall n, In n (flat_map (fun x => map fst (fst x)) l) -> event_at n (events sc3) = event_at n start).
    { intros sc3 -> n Hn. rewrite H2 by (intros C; exact (NoDup_app_disjoint _ _ _ Ho C Hn)). apply Hs. cbn [flat_map]. apply in_or_app. auto. }
    unfold expected. cbn [combine flat_map]. fold (expected start l rs'). fold (originals start evs).
    assert (Keep : sc1 = sc0 -> stored f r = false -> Forall2 (readable (keys sc2)) (held sc2) (exp ++ (if stored f r then originals start evs else []) ++ expected start l rs')).
    { intros -> ->. cbn [app]. eapply IH; [exact Old|exact (NoDup_app_r _ _ Ho)|exact P|apply Ev1; reflexivity|exact E2]. }
    assert (Take : r0 = Ended -> sc1 = mk_scene (keys sc0) (events sc0) (held sc0 ++ rows_of sc0 evs) -> stored f r = true -> Forall2 (readable (keys sc2)) (held sc2) (exp ++ (if stored f r then originals start evs else []) ++ expected start l rs')).
    { intros Hr -> ->. rewrite app_assoc. eapply (IH (mk_scene (keys sc0) (events sc0) (held sc0 ++ rows_of sc0 evs))); [|exact (NoDup_app_r _ _ Ho)|exact P|apply Ev1; reflexivity|exact E2].
      cbn [keys held]. apply Forall2_app; [exact Old|]. specialize (H3 Hr). rewrite Or in H3. exact H3. }
    destruct r0; [destruct f|..]; injection E1 as <- <-; first [apply Take; reflexivity | apply Keep; [reflexivity|]]; try reflexivity; destruct f; reflexivity.
Qed.

Lemma read_ok d hs : forall s es, Forall2 (readable s) hs es -> exists got, read_all srv d s hs = (got, Ended)
  /\ Forall2 (fun g e => exists r, g = Some r /\ same e r) got es.
Proof.
  induction hs as [|[k r] hs IH]; intros s es H; inversion H as [|? e ? es' Hr H']; subst.
  - exists []. split; [reflexivity|constructor].
  - cbn [read_all]. unfold decrypt_row. cbn [fst snd]. unfold held_as in Hr. cbn [fst snd] in Hr. destruct k as [p|].
    + destruct Hr as (A & T & C & En). destruct (decrypt_ok p e r [] d s A T En) as (s' & e2 & E & Ee & G). rewrite E.
      destruct (IH s' es') as (got & Eg & Fg); [eapply Forall2_weaken; [|exact H']; intros h e0; apply readable_keep; exact G|]. rewrite Eg.
      exists (Some e2 :: got). split; [reflexivity|]. constructor; [|exact Fg]. exists e2. split; [reflexivity|]. intros f. rewrite Ee.
      destruct (in_dec string_dec f (targets p)) as [Hi|]; [exact (C f Hi)|reflexivity].
    + destruct (IH s es' H') as (got & Eg & Fg). rewrite Eg. exists (Some r :: got). split; [reflexivity|]. constructor; [|exact Fg]. exists r. auto.
Qed.
End Methods.

(** * The engine on the in-memory key store is such an encryptor *)
Lemma mem_trusty enc dec : (forall k n p c, enc k n p = Text c -> dec k c = Text p) -> trusty (mem_encryptor enc dec) (mem_opens enc).
Proof.
  intros Hc. split.
  - intros f m x t m' c. unfold mem_encryptor. cbn [engine finish hd tl mem_server]. destruct (entry x (keys_of m)) as [k|] eqn:E.
    + destruct (String.eqb_spec k "") as [->|Nk]; cbn; [intros X; injection X; discriminate|].
      intros X. assert (Xm : m = m') by congruence. subst m'. destruct (enc k (snd f) t) as [v| |] eqn:Ev; cbn in X; try discriminate. injection X as ->. exists k, (snd f). auto.
    + cbn. destruct (fst f) as [bytes|]; cbn; [|intros X; injection X; discriminate].
      destruct (String.eqb_spec (Encodings.base64 true bytes) "") as [|Nk]; cbn; [intros X; injection X; discriminate|].
      destruct (member (Encodings.base64 true bytes) (used m)); cbn; [intros X; injection X; discriminate|]. rewrite E. cbn.
      intros X. assert (Xm : mk_mem (enter x (Encodings.base64 true bytes) (keys_of m)) (Encodings.base64 true bytes :: used m) = m') by congruence. subst m'.
      destruct (enc (Encodings.base64 true bytes) (snd f) t) as [v| |] eqn:Ev; cbn in X; try discriminate. injection X as ->.
      exists (Encodings.base64 true bytes), (snd f). cbn. rewrite entry_same. auto.
  - intros f m x c t (k & n & E & Nk & D). unfold mem_encryptor. cbn. rewrite E. apply String.eqb_neq in Nk. rewrite Nk. cbn. rewrite (Hc _ _ _ _ D). reflexivity.
  - intros f m q m' r x c t (k & n & E & Nk & D). unfold mem_encryptor. destruct q as [y t'|y t']; cbn [engine finish hd tl mem_server].
    + destruct (entry y (keys_of m)) as [k'|] eqn:Ey.
      * destruct (String.eqb k' ""); cbn; intros X; assert (Xm : m = m') by congruence; subst m'; exists k, n; auto.
      * cbn. destruct (fst f) as [bytes|]; cbn; [|intros X; assert (Xm : m = m') by congruence; subst m'; exists k, n; auto].
        destruct (String.eqb (Encodings.base64 true bytes) ""); cbn; [intros X; assert (Xm : m = m') by congruence; subst m'; exists k, n; auto|].
        destruct (member (Encodings.base64 true bytes) (used m)); cbn; [intros X; assert (Xm : m = m') by congruence; subst m'; exists k, n; auto|]. rewrite Ey. cbn.
        intros X. assert (Xm : mk_mem (enter y (Encodings.base64 true bytes) (keys_of m)) (Encodings.base64 true bytes :: used m) = m') by congruence. subst m'.
        exists k, n. cbn. rewrite entry_other by (intros ->; congruence). auto.
    + destruct (entry y (keys_of m)) as [k'|]; [destruct (String.eqb k' "")|]; cbn; intros X; assert (Xm : m = m') by congruence; subst m'; exists k, n; auto.
Qed.
Lemma mem_deletes enc dec : deletes (mem_encryptor enc dec) mem_gone.
Proof.
  split.
  - intros f m q G. unfold mem_encryptor, mem_gone in *. destruct q as [x t|x t]; cbn in *; rewrite G; reflexivity.
  - intros f m q x G. unfold mem_encryptor, mem_gone in *. destruct q as [y t|y t]; cbn.
    + destruct (entry y (keys_of m)) as [k|] eqn:E; [destruct (String.eqb k ""); cbn; exact G|]. cbn. destruct (fst f); cbn; [|exact G].
      destruct (String.eqb (Encodings.base64 true s) ""); cbn; [exact G|]. destruct (member _ _); cbn; [exact G|]. rewrite E. cbn. rewrite entry_other by (intros ->; congruence). exact G.
    + destruct (entry y (keys_of m)) as [k|]; [destruct (String.eqb k "")|]; cbn; exact G.
Qed.
Lemma after_keeps {S F} (srv : F -> S -> ask -> S * reply) opens qs : trusty srv opens -> forall s, grown opens s (after srv s qs).
Proof.
  intros Ht. induction qs as [|[f q] qs IH]; intros s x c t H; [exact H|]. apply IH. cbn. destruct (srv f s q) as [s' r] eqn:E. exact (stays _ _ Ht _ _ _ _ _ _ _ _ H E).
Qed.
Lemma redact_blanks p e : apart p -> blanked p e (redact p e).
Proof.
  intros Ha. destruct (apart_facts p Ha) as (_ & _ & _ & D & _ & _). split; [|split]; intros f Hf; rewrite redact_entry.
  - rewrite in_app_iff in Hf. destruct (in_dec _ f (sources p)); [tauto|]. destruct (in_dec _ f (texts p)); [tauto|reflexivity].
  - destruct (D f Hf). destruct (in_dec _ f (sources p)); [contradiction|]. destruct (in_dec _ f (texts p)); [reflexivity|contradiction].
  - destruct (in_dec _ f (sources p)); [reflexivity|contradiction].
Qed.
Lemma finish_gone {S F} (srv : F -> S -> ask -> S * reply) gone p e q items done fs d : deletes srv gone -> forall s got x,
  gone s x -> gone (fst (finish srv fs d s (each p e q items got done))) x.
Proof.
  intros Hd. revert fs. induction items as [|[t b] items IH]; intros fs s got x G; cbn [each finish]; [exact G|].
  pose proof (stays_gone _ _ Hd (hd d fs) s (q t) x G) as G1. destruct (srv (hd d fs) s (q t)) as [s1 a]. cbn in G1.
  destruct a; cbn; try exact G1. destruct b; [destruct (atoi s0); [|exact G1]|]; apply IH; exact G1.
Qed.
Lemma sealed_typed {S} (opens : S -> string -> string -> string -> Prop) s p e e' : sealed opens s p e e' -> typed p e'.
Proof.
  intros (_ & H2 & _ & H4). split.
  - intros f Hf. destruct (H2 f Hf) as (c & E & _). eauto.
  - intros f Hf. exists 0%Z. split; [exact (H4 f Hf)|]. unfold min_int, max_int. lia.
Qed.

Lemma decrypt_gone {S F} (srv : F -> S -> ask -> S * reply) gone p e fs d s : deletes srv gone -> (texts p ++ sources p <> [])%list ->
  gone s (text_of e (subject_field p)) -> snd (finish srv fs d s (gen_decrypt p e)) = (EndedDeleted, redact p e) /\ snd (finish srv fs d s (gen_encrypt p e)) = (EndedDeleted, redact p e).
Proof.
  intros Hd N G. split.
  - unfold gen_decrypt. apply (each_gone srv gone); [exact Hd|reflexivity|exact G|]. intros C. apply N. apply app_eq_nil in C. destruct C as [C1 C2]. apply map_eq_nil in C1, C2. unfold sources. rewrite C1, C2. reflexivity.
  - unfold gen_encrypt. apply (each_gone srv gone); [exact Hd|reflexivity|exact G|]. intros C. apply N. apply app_eq_nil in C. destruct C as [C1 C2]. apply map_eq_nil in C1, C2. unfold sources. rewrite C1, C2. reflexivity.
Qed.
Lemma accept_ok {S F} (srv : F -> S -> ask -> S * reply) opens gone d s0 : trusty srv opens -> deletes srv gone -> forall hs s es,
  Forall2 (fun h e => (held_as opens s0 h e /\ held_as opens s h e) \/ exists p, lost gone s0 h p /\ lost gone s h p) hs es ->
  Forall2 (fun he r => (held_as opens s0 (fst he) (snd he) /\ same (snd he) r) \/ (exists p, lost gone s0 (fst he) p /\ blanked p (snd (fst he)) r)) (combine hs es) (accept_all srv d s hs).
Proof.
  intros Ht Hd. induction hs as [|[k r] hs IH]; intros s es H; inversion H as [|? e ? es' Hr H']; subst; [constructor|].
  cbn [accept_all combine]. unfold decrypt_row. cbn [fst snd].
  assert (Go : forall s1 e1, grown opens s s1 -> (forall x, gone s x -> gone s1 x) ->
    ((held_as opens s0 (k, r) e /\ same e e1) \/ (exists p, lost gone s0 (k, r) p /\ blanked p r e1)) ->
    Forall2 (fun he r => (held_as opens s0 (fst he) (snd he) /\ same (snd he) r) \/ (exists p, lost gone s0 (fst he) p /\ blanked p (snd (fst he)) r)) (((k, r), e) :: combine hs es') (e1 :: accept_all srv d s1 hs)).
  { intros s1 e1 G1 G2 X. constructor; [cbn; exact X|]. apply IH. eapply Forall2_weaken; [|exact H'].
    intros h e0 [[X1 X2]|(p & X1 & X2)]; [left; split; [exact X1|eapply readable_keep; eauto]|right; exists p; split; [exact X1|]].
    destruct X2 as (Y1 & Y2 & Y3 & Y4). repeat split; auto. }
  destruct Hr as [[R0 R]|(p & L0 & (Ek & Ha & N & G))].
  - unfold held_as in R. cbn [fst snd] in R. destruct k as [p|].
    + destruct R as (A & T & C & En). destruct (decrypt_ok srv opens Ht p e r [] d s A T En) as (s' & e2 & E & Ee & Gr). rewrite E.
      assert (Gg : forall x, gone s x -> gone s' x). { intros x X. change s' with (fst (s', (Ended, e2))). rewrite <- E. unfold gen_decrypt. apply finish_gone; assumption. }
      apply Go; [exact Gr|exact Gg|]. left. split; [exact R0|]. intros f. rewrite Ee. destruct (in_dec string_dec f (targets p)) as [Hi|]; [exact (C f Hi)|reflexivity].
    + apply Go; [intros ? ? ? X; exact X|auto|]. left. auto.
  - cbn in Ek, G. subst k. destruct (decrypt_gone srv gone p r [] d s Hd N G) as [E _].
    destruct (finish srv [] d s (gen_decrypt p r)) as [s' [r1 e1]] eqn:Ef. cbn in E. injection E as -> ->.
    assert (Gg : forall x, gone s x -> gone s' x). { intros x X. change s' with (fst (s', (EndedDeleted, redact p r))). rewrite <- Ef. unfold gen_decrypt. apply finish_gone; assumption. }
    apply Go; [unfold gen_decrypt in Ef; eapply each_grown; [exact Ht|exact Ef]|exact Gg|]. right. exists p. split; [exact L0|apply redact_blanks; exact Ha].
Qed.

(** Calls of the engine and deletions of other subjects' keys. *)
Lemma engine_step enc dec m o : fst (finish mem_server [] Fine m (engine enc dec o))
  = match o with
    | Encrypt s t r n => fst (mem_encryptor enc dec (r, n) m (Seal s t))
    | Decrypt s t => fst (mem_encryptor enc dec (None, None) m (Open s t))
    | Deleting s => mk_mem (enter s "" (keys_of m)) (used m)
    end.
Proof. destruct o; unfold mem_encryptor; [| |reflexivity]; cbn [fst snd]; match goal with |- context [finish ?a ?b ?c ?d ?e] => destruct (finish a b c d e) end; reflexivity. Qed.
Lemma engine_keeps enc dec x l : (forall k n p c, enc k n p = Text c -> dec k c = Text p) -> ~ In (Deleting x) l ->
  forall m c t, mem_opens enc m x c t -> mem_opens enc (engine_after enc dec m l) x c t.
Proof.
  intros Hc. induction l as [|o l IH]; intros N m c t H; [exact H|]. cbn. apply IH; [intros C; apply N; right; exact C|]. rewrite engine_step. destruct o as [s t' r n|s t'|s].
  - destruct (mem_encryptor enc dec (r, n) m (Seal s t')) as [m' a] eqn:E. exact (stays _ _ (mem_trusty enc dec Hc) _ _ _ _ _ _ _ _ H E).
  - destruct (mem_encryptor enc dec (None, None) m (Open s t')) as [m' a] eqn:E. exact (stays _ _ (mem_trusty enc dec Hc) _ _ _ _ _ _ _ _ H E).
  - destruct H as (k & n & E & H). exists k, n. cbn. rewrite entry_other; [auto|]. intros ->. apply N. left. reflexivity.
Qed.
Lemma engine_gone enc dec x l : In (Deleting x) l -> forall m, mem_gone (engine_after enc dec m l) x.
Proof.
  assert (K : forall l m, mem_gone m x -> mem_gone (engine_after enc dec m l) x).
  { clear l. induction l as [|o l IH]; intros m G; [exact G|]. cbn. apply IH. rewrite engine_step. destruct o as [s t' r n|s t'|s].
    - exact (stays_gone _ _ (mem_deletes enc dec) _ _ _ _ G).
    - exact (stays_gone _ _ (mem_deletes enc dec) _ _ _ _ G).
    - unfold mem_gone in *. cbn. destruct (string_dec s x) as [->|]; [apply entry_same|rewrite entry_other; assumption]. }
  induction l as [|o l IH]; intros H m; [contradiction|]. destruct H as [->|H]; cbn; [|apply IH; exact H]. apply K. unfold mem_gone. cbn. apply entry_same.
Qed.

(** * The generator *)
Lemma put_in k v l : In (k, v) (put k v l).
Proof. induction l as [|[a b] l IH]; cbn; [auto|]. destruct (String.compare k a); [left; reflexivity|left; reflexivity|right; exact IH]. Qed.
Lemma put_other k v l k' v' : k' <> k -> In (k', v') l -> In (k', v') (put k v l).
Proof.
  intros N. induction l as [|[a b] l IH]; cbn; [auto|]. destruct (String.compare k a) eqn:C; intros [H|H].
  - apply String.compare_eq_iff in C. congruence.
  - right. exact H.
  - right. left. exact H.
  - right. right. exact H.
  - left. exact H.
  - right. apply IH, H.
Qed.
Lemma put_from k v l k' v' : In (k', v') (put k v l) -> (k', v') = (k, v) \/ In (k', v') l.
Proof. induction l as [|[a b] l IH]; cbn; [intros [H|[]]; auto|]. destruct (String.compare k a); cbn; intuition. Qed.
(** What a field contributes. *)
Definition as_text (f : field) (name : string) : Prop := exists r, names f = name :: r /\ tag "encrypt" f = Some "personal-data" /\ tag "serialized" f = None.
Definition as_source (f : field) (t name : string) : Prop := exists r v, names f = name :: r /\ tag "encrypt" f = Some "personal-data" /\ tag "serialized" f = Some v /\ t = tag_name v.
Lemma read_texts l : forall p name, In name (texts (fold_left read_field l p)) <-> In name (texts p) \/ exists f, In f l /\ as_text f name.
Proof.
  induction l as [|f l IH]; intros p name; cbn [fold_left].
  - split; [auto|]. intros [H|(f & [] & _)]. exact H.
  - rewrite IH.
    assert (X : In name (texts (read_field p f)) <-> In name (texts p) \/ as_text f name).
    { unfold read_field, as_text. destruct (names f) as [|a r]; [split; [auto|intros [H|(r & H & _)]; [exact H|discriminate]]|].
      destruct (tag "encrypt" f) as [v|]; [|split; [auto|intros [H|(r' & _ & H & _)]; [exact H|discriminate]]].
      destruct (String.eqb_spec v "subject-id") as [->|]; [split; [auto|intros [H|(r' & _ & H & _)]; [exact H|discriminate]]|].
      destruct (String.eqb_spec v "personal-data") as [->|Nv]; [|split; [auto|intros [H|(r' & _ & H & _)]; [exact H|congruence]]].
      destruct (tag "serialized" f) as [t|]; cbn; [split; [auto|intros [H|(r' & _ & _ & H)]; [exact H|discriminate]]|].
      rewrite in_app_iff. cbn. split; [intros [H|[->|[]]]; [auto|right; exists r; auto]|]. intros [H|(r' & E & _)]; [auto|]. injection E as -> _. auto. }
    rewrite X. split.
    + intros [[H|H]|(g & H1 & H2)]; [auto|right; exists f; split; [left; reflexivity|exact H]|right; exists g; split; [right; exact H1|exact H2]].
    + intros [H|(g & [<-|H1] & H2)]; [auto|auto|right; exists g; auto].
Qed.
Lemma read_sources l : forall p t name, In (t, name) (serialized (fold_left read_field l p)) -> In (t, name) (serialized p) \/ exists f, In f l /\ as_source f t name.
Proof.
  induction l as [|f l IH]; intros p t name H; cbn [fold_left] in H; [auto|].
  destruct (IH _ _ _ H) as [H1|(g & H1 & H2)]; [|right; exists g; split; [right; exact H1|exact H2]].
  assert (X : In (t, name) (serialized p) \/ as_source f t name); [|destruct X as [X|X]; [auto|right; exists f; split; [left; reflexivity|exact X]]].
  unfold read_field in H1. unfold as_source. destruct (names f) as [|a r]; [auto|]. destruct (tag "encrypt" f) as [v|]; [|auto].
  destruct (String.eqb v "subject-id"); [auto|]. destruct (String.eqb_spec v "personal-data") as [Ev|]; [subst v|auto].
  destruct (tag "serialized" f) as [u|]; [|auto]. cbn in H1. apply put_from in H1. destruct H1 as [H1|H1]; [|auto]. injection H1 as -> ->. right. exists r, u. auto.
Qed.
Lemma keep_sources l t name : (forall f n, In f l -> as_source f t n -> n = name) -> forall p,
  In (t, name) (serialized p) \/ (exists f, In f l /\ as_source f t name) -> In (t, name) (serialized (fold_left read_field l p)).
Proof.
  induction l as [|f l IH]; intros D p H; cbn [fold_left]; [destruct H as [H|(f & [] & _)]; exact H|].
  apply IH; [intros g n Hg; apply D; right; exact Hg|].
  assert (X : In (t, name) (serialized p) \/ as_source f t name -> In (t, name) (serialized (read_field p f))).
  { specialize (D f). unfold as_source in *. unfold read_field. destruct (names f) as [|a r]; [intros [X|(r & v & E & _)]; [exact X|discriminate]|].
    destruct (tag "encrypt" f) as [v|]; [|intros [X|(r' & v & _ & E & _)]; [exact X|discriminate]].
    destruct (String.eqb_spec v "subject-id") as [->|]; [intros [X|(r' & v & _ & E & _)]; [exact X|discriminate]|].
    destruct (String.eqb_spec v "personal-data") as [->|Nv]; [|intros [X|(r' & v' & _ & E & _)]; [exact X|congruence]].
    destruct (tag "serialized" f) as [u|]; [|intros [X|(r' & v & _ & _ & E & _)]; [exact X|discriminate]]. cbn [serialized].
    destruct (string_dec t (tag_name u)) as [->|Nt].
    - rewrite <- (D a (or_introl eq_refl)) by (exists r, u; auto). intros _. apply put_in.
    - intros [X|(r' & v & _ & _ & E & E2)]; [apply put_other; assumption|]. congruence. }
  destruct H as [H|(g & [<-|Hg] & Ha)]; [left; auto|left; auto|right; exists g; auto].
Qed.
Lemma read_subject l : forall p, subject_field (fold_left read_field l p) = subject_field p
  \/ exists f r, In f l /\ names f = subject_field (fold_left read_field l p) :: r /\ tag "encrypt" f = Some "subject-id".
Proof.
  induction l as [|f l IH]; intros p; cbn [fold_left]; [auto|].
  destruct (IH (read_field p f)) as [E|(g & r & Hg & E)]; [|right; exists g, r; split; [right; exact Hg|exact E]].
  rewrite E. unfold read_field. destruct (names f) as [|a r] eqn:En; [auto|]. destruct (tag "encrypt" f) as [v|] eqn:Et; [|auto].
  destruct (String.eqb_spec v "subject-id") as [->|]; [right; exists f, r; cbn; auto|]. destruct (String.eqb v "personal-data"); [|auto]. destruct (tag "serialized" f); auto.
Qed.

(** Fields of a struct have different names. *)
Lemma one_field l n : NoDup (flat_map names l) -> forall f g, In f l -> In g l -> In n (names f) -> In n (names g) -> f = g.
Proof.
  induction l as [|h l IH]; intros ND f g Hf Hg Nf Ng; [contradiction|]. cbn in ND.
  assert (X : forall k, In k l -> In n (names k) -> In n (names h) -> False).
  { intros k Hk Nk Nh. apply (NoDup_app_disjoint _ _ n ND Nh). apply in_flat_map. eauto. }
  destruct Hf as [->|Hf], Hg as [->|Hg]; [reflexivity|exfalso; eauto|exfalso; eauto|]. apply IH; auto. exact (NoDup_app_r _ _ ND).
Qed.
Lemma texts_of l : forall p, texts (fold_left read_field l p) = (texts p ++ flat_map (fun f =>
  match names f, tag "encrypt" f, tag "serialized" f with a :: _, Some v, None => if String.eqb v "personal-data" then [a] else [] | _, _, _ => [] end) l)%list.
Proof.
  induction l as [|f l IH]; intros p; cbn [fold_left flat_map]; [rewrite app_nil_r; reflexivity|]. rewrite IH, app_assoc. f_equal.
  unfold read_field. destruct (names f) as [|a r]; [rewrite app_nil_r; reflexivity|]. destruct (tag "encrypt" f) as [v|]; [|rewrite app_nil_r; reflexivity].
  destruct (String.eqb_spec v "subject-id") as [->|]; [cbn; destruct (tag "serialized" f); rewrite app_nil_r; reflexivity|].
  destruct (String.eqb v "personal-data"); destruct (tag "serialized" f); cbn; rewrite ?app_nil_r; reflexivity.
Qed.
Lemma NoDup_part {A B} (part all : A -> list B) l : (forall a, exists r, all a = part a ++ r)%list -> NoDup (flat_map all l) -> NoDup (flat_map part l).
Proof.
  intros H. induction l as [|a l IH]; cbn; intros ND; [constructor|]. pose proof (NoDup_app_l _ _ ND) as N1. pose proof (IH (NoDup_app_r _ _ ND)) as N2.
  destruct (H a) as [r E]. assert (D : forall x, In x (part a) -> ~ In x (flat_map part l)).
  { intros x Hx Hl. apply (NoDup_app_disjoint _ _ x ND); [rewrite E; apply in_or_app; auto|]. apply in_flat_map in Hl. destruct Hl as (b & Hb & Hi). apply in_flat_map. exists b. split; [exact Hb|]. destruct (H b) as [r' ->]. apply in_or_app. auto. }
  rewrite E in N1. apply NoDup_app_l in N1. clear -N1 N2 D. induction (part a) as [|x l' IH]; [exact N2|]. inversion N1; subst. cbn. constructor; [|apply IH; [assumption|intros y Hy; apply D; right; exact Hy]].
  rewrite in_app_iff. intros [C|C]; [contradiction|]. apply (D x); [left; reflexivity|exact C].
Qed.
Lemma put_json k v l : put k v l = Json.put k v l.
Proof. induction l as [|[a b] l IH]; cbn; [reflexivity|]. destruct (String.compare k a); [reflexivity|reflexivity|]. rewrite IH. reflexivity. Qed.
Lemma sorted_nodup {A} (l : list (string * A)) : JsonSpec.keys_sorted l -> NoDup (map fst l).
Proof.
  induction l as [|[k v] l IH]; intros H; [constructor|]. cbn. constructor; [|apply IH; eapply JsonProofs.sorted_tail; exact H].
  intros C. apply in_map_iff in C. destruct C as ([k' v'] & E & Hi). cbn in E. subst k'. pose proof (JsonProofs.sorted_below _ _ _ H _ _ Hi) as X. rewrite JsonProofs.compare_refl in X. discriminate.
Qed.
Lemma read_sorted l : forall p, JsonSpec.keys_sorted (serialized p) -> JsonSpec.keys_sorted (serialized (fold_left read_field l p)).
Proof.
  induction l as [|f l IH]; intros p H; [exact H|]. cbn [fold_left]. apply IH. unfold read_field. destruct (names f); [exact H|]. destruct (tag "encrypt" f); [|exact H].
  destruct (String.eqb s0 "subject-id"); [exact H|]. destruct (String.eqb s0 "personal-data"); [|exact H]. destruct (tag "serialized" f); [|exact H]. cbn. rewrite put_json. apply JsonProofs.put_sorted. exact H.
Qed.
Lemma NoDup_app_intro' {A} (a b : list A) : NoDup a -> NoDup b -> (forall x, In x a -> ~ In x b) -> NoDup (a ++ b).
Proof.
  induction a as [|x a IH]; cbn; intros Na Nb D; [exact Nb|]. inversion Na; subst. constructor; [|apply IH; auto; intros y Hy; apply D; auto].
  rewrite in_app_iff. intros [C|C]; [contradiction|]. exact (D x (or_introl eq_refl) C).
Qed.
Lemma NoDup_snd (l : list (string * string)) : NoDup (map fst l) -> (forall t t' n, In (t, n) l -> In (t', n) l -> t = t') -> NoDup (map snd l).
Proof.
  induction l as [|[t n] l IH]; intros N D; [constructor|]. cbn in *. inversion N; subst. constructor.
  - intros C. apply in_map_iff in C. destruct C as ([t' n'] & E & Hi). cbn in E. subst n'. rewrite (D t t' n) in *; auto. apply H1. apply in_map_iff. exists (t', n). auto.
  - apply IH; [assumption|]. intros a b m Ha Hb. apply (D a b m); auto.
Qed.
Lemma read_apart l p : parse_struct l = Personal p -> NoDup (flat_map names l) ->
  (forall f g v t, In f l -> In g l -> tag "encrypt" f = Some "personal-data" -> tag "serialized" f = Some v -> In (tag_name v) (names g) -> tag "encrypt" g <> Some t) ->
  (forall f v, In f l -> tag "encrypt" f = Some "personal-data" -> tag "serialized" f = Some v -> In (tag_name v) (flat_map names l)) -> apart p.
Proof.
  intros P ND Dt Dc. unfold parse_struct in P. destruct (targets_are_strings l); [|discriminate]. cbn [negb] in P.
  destruct (String.eqb_spec (subject_field (read_fields l)) "") as [|Ns]; [discriminate|]. injection P as <-.
  unfold read_fields in *. set (p0 := mk_personal "" [] []) in *. set (p := fold_left read_field l p0) in *.
  assert (Sub : exists f r, In f l /\ names f = subject_field p :: r /\ tag "encrypt" f = Some "subject-id").
  { destruct (read_subject l p0) as [E|X]; [fold p in E; cbn in E; congruence|exact X]. }
  destruct Sub as (fs & rs & Hfs & Nfs & Tfs).
  assert (Tx : forall n, In n (texts p) -> exists f, In f l /\ as_text f n).
  { intros n H. apply read_texts in H. destruct H as [[]|H]. exact H. }
  assert (Sx : forall t n, In (t, n) (serialized p) -> exists f, In f l /\ as_source f t n).
  { intros t n H. apply read_sources in H. destruct H as [[]|H]. exact H. }
  assert (Sn : forall n, In n (sources p) -> exists t f, In f l /\ as_source f t n).
  { intros n H. apply in_map_iff in H. destruct H as ([t m] & E & H). cbn in E. subst m. exists t. apply Sx. exact H. }
  assert (Tg : forall t, In t (targets p) -> exists g, In g l /\ In t (names g) /\ forall v, tag "encrypt" g <> Some v).
  { intros t H. apply in_map_iff in H. destruct H as ([t' n] & E & H). cbn in E. subst t'. destruct (Sx _ _ H) as (f & Hf & r & v & E1 & E2 & E3 & ->).
    pose proof (Dc f v Hf E2 E3) as X. apply in_flat_map in X. destruct X as (g & Hg & X). exists g. split; [exact Hg|]. split; [exact X|]. intros u. exact (Dt f g v u Hf Hg E2 E3 X). }
  unfold apart. constructor.
  - rewrite !in_app_iff. intros [C|[C|C]].
    + destruct (Tx _ C) as (f & Hf & r & E1 & E2 & _). assert (X : f = fs) by (apply (one_field l (subject_field p) ND); auto; [rewrite E1; left; reflexivity|rewrite Nfs; left; reflexivity]). subst f. rewrite E2 in Tfs. discriminate.
    + destruct (Sn _ C) as (t & f & Hf & r & v & E1 & E2 & _). assert (X : f = fs) by (apply (one_field l (subject_field p) ND); auto; [rewrite E1; left; reflexivity|rewrite Nfs; left; reflexivity]). subst f. rewrite E2 in Tfs. discriminate.
    + destruct (Tg _ C) as (g & Hg & Ng & Tn). assert (X : g = fs) by (apply (one_field l (subject_field p) ND); auto; rewrite Nfs; left; reflexivity). subst g. exact (Tn _ Tfs).
  - apply NoDup_app_intro'; [|apply NoDup_app_intro'|].
    + unfold p. rewrite texts_of. cbn [texts app p0]. eapply NoDup_part; [|exact ND]. intros f. destruct (names f) as [|a r]; [exists []; reflexivity|].
      destruct (tag "encrypt" f) as [v|]; [|exists (a :: r); reflexivity]. destruct (tag "serialized" f); [exists (a :: r); reflexivity|]. destruct (String.eqb v "personal-data"); [exists r|exists (a :: r)]; reflexivity.
    + unfold sources. apply NoDup_snd; [apply sorted_nodup; unfold p; apply read_sorted; exact Logic.I|].
      intros t t' n H1 H2. destruct (Sx _ _ H1) as (f & Hf & r & v & E1 & E2 & E3 & ->). destruct (Sx _ _ H2) as (g & Hg & r' & v' & E1' & E2' & E3' & ->).
      assert (X : f = g) by (apply (one_field l n ND); auto; [rewrite E1; left; reflexivity|rewrite E1'; left; reflexivity]). subst g. congruence.
    + apply sorted_nodup. unfold p. apply read_sorted. exact Logic.I.
    + intros n H C. destruct (Sn _ H) as (t & f & Hf & r & v & E1 & E2 & _). destruct (Tg _ C) as (g & Hg & Ng & Tn).
      assert (X : f = g) by (apply (one_field l n ND); auto; rewrite E1; left; reflexivity). subst g. exact (Tn _ E2).
    + intros n H C. destruct (Tx _ H) as (f & Hf & r & E1 & E2 & E3). apply in_app_iff in C. destruct C as [C|C].
      * destruct (Sn _ C) as (t & g & Hg & r' & v & E1' & E2' & E3' & _). assert (X : f = g) by (apply (one_field l n ND); auto; [rewrite E1; left; reflexivity|rewrite E1'; left; reflexivity]). subst g. congruence.
      * destruct (Tg _ C) as (g & Hg & Ng & Tn). assert (X : f = g) by (apply (one_field l n ND); auto; rewrite E1; left; reflexivity). subst g. exact (Tn _ E2).
Qed.

(** A target, once named, stays a target. *)
Lemma keep_target l t : forall p, (exists n, In (t, n) (serialized p)) \/ (exists f n, In f l /\ as_source f t n) ->
  exists n, In (t, n) (serialized (fold_left read_field l p)).
Proof.
  induction l as [|f l IH]; intros p H; cbn [fold_left]; [destruct H as [H|(f & n & [] & _)]; exact H|].
  apply IH.
  assert (K : forall k v m, In (t, m) (serialized p) -> exists n, In (t, n) (put k v (serialized p))).
  { intros k v m Hm. destruct (string_dec t k) as [->|N]; [exists v; apply put_in|exists m; now apply put_other]. }
  destruct H as [(n & H)|(g & n & [<-|Hg] & Hs)].
  - left. unfold read_field. destruct (names f) as [|a r]; [eauto|]. destruct (tag "encrypt" f) as [v|]; [|eauto].
    destruct (String.eqb v "subject-id"); [eauto|]. destruct (String.eqb v "personal-data"); [|eauto].
    destruct (tag "serialized" f) as [u|]; [|eauto]. cbn [serialized]. now apply (K _ _ n).
  - left. destruct Hs as (r & v & E1 & E2 & E3 & ->). unfold read_field. rewrite E1, E2, E3. cbn. exists n. apply put_in.
  - right. exists g, n. auto.
Qed.
Lemma entry_listed {A} k (l : list (string * A)) : (exists v, In (k, v) l) <-> exists v, entry k l = Some v.
Proof.
  split.
  - intros (v & H). induction l as [|[a b] l IH]; [contradiction|]. cbn. destruct (String.eqb_spec a k) as [->|N].
    + rewrite ?String.eqb_refl. eauto.
    + destruct H as [H|H]; [congruence|]. auto.
  - intros (v & H). exists v. induction l as [|[a b] l IH]; [discriminate|]. cbn in H. destruct (String.eqb_spec a k) as [->|N].
    + left. congruence.
    + right. auto.
Qed.
Lemma read_targets l t : (exists v, entry t (serialized (read_fields l)) = Some v) <-> exists f n, In f l /\ as_source f t n.
Proof.
  rewrite <- entry_listed. split.
  - intros (n & H). apply read_sources in H. destruct H as [[]|(f & Hf & Hs)]. eauto.
  - intros H. apply (keep_target l t (mk_personal "" [] [])). auto.
Qed.
