(** The caching key store over an in-memory one. *)
From Coq Require Import PeanoNat.
From Verif Require Import Base Prog KeyStores KeySpec KeyProofs KeyProofs2.
Open Scope string_scope.
Open Scope nat_scope.

Notation ca_serve := (ca_server mem_server).
Notation ca_code := (ca_call mem_call).
Notation ca_state := (list (nat * mem) * mem)%type.

Lemma first_same p m l : first_of p ((p, m) :: l) = m.
Proof. unfold first_of. cbn. rewrite Nat.eqb_refl. reflexivity. Qed.
Lemma first_other p q m l : p <> q -> first_of q ((p, m) :: l) = first_of q l.
Proof. intros H. unfold first_of. cbn. destruct (Nat.eqb_spec p q); [congruence|reflexivity]. Qed.

(** * One call at a time *)

(** The cache [a] agrees with the store [b] behind it. *)
Definition agree (a b : mem) : Prop :=
  (forall s k, entry s (keys_of a) = Some k -> entry s (keys_of b) = Some k)
  /\ (forall k, member k (used a) = true -> member k (used b) = true)
  /\ (forall s k, member k (used a) = true -> entry s (keys_of b) = Some k -> entry s (keys_of a) <> None).
Definition sound (b : mem) : Prop :=
  (forall s k, entry s (keys_of b) = Some k -> k <> "" -> member k (used b) = true)
  /\ member "" (used b) = false
  /\ (forall s t k, entry s (keys_of b) = Some k -> entry t (keys_of b) = Some k -> k <> "" -> s = t).

Lemma agree_new b : agree mem_new b.
Proof. split; [|split]; intros; discriminate. Qed.

Lemma member_cons k x l : member k (x :: l) = String.eqb k x || member k l.
Proof. reflexivity. Qed.

Lemma sound_step f b q b' r : sound b -> mem_server f b q = (b', r) -> sound b'.
Proof.
  intros (S1 & S2 & S3). destruct q as [s|s k|s]; cbn [mem_server].
  - intros [= <- <-]. split; [exact S1|]. split; assumption.
  - destruct (String.eqb_spec k "") as [->|Nk]; [intros [= <- <-]; split; [exact S1|split; assumption]|].
    destruct (member k (used b)) eqn:M; [intros [= <- <-]; split; [exact S1|split; assumption]|].
    destruct (entry s (keys_of b)) eqn:E; intros [= <- <-]; [split; [exact S1|split; assumption]|].
    split; [|split]; cbn [keys_of used].
    + intros t k' H N. rewrite entry_enter in H. rewrite member_cons. destruct (String.eqb_spec s t); [injection H as <-; rewrite String.eqb_refl; reflexivity|].
      rewrite (S1 _ _ H N). apply orb_true_r.
    + rewrite member_cons, S2. destruct (String.eqb_spec "" k); [congruence|reflexivity].
    + intros t u k' H1 H2 N. rewrite entry_enter in H1, H2. destruct (String.eqb_spec s t), (String.eqb_spec s u); try congruence.
      * injection H1 as <-. apply S1 in H2; congruence.
      * injection H2 as <-. apply S1 in H1; congruence.
      * exact (S3 _ _ _ H1 H2 N).
  - intros [= <- <-]. split; [|split]; cbn [keys_of used].
    + intros t k' H N. rewrite entry_enter in H. destruct (String.eqb_spec s t); [congruence|exact (S1 _ _ H N)].
    + exact S2.
    + intros t u k' H1 H2 N. rewrite entry_enter in H1, H2. destruct (String.eqb_spec s t), (String.eqb_spec s u); try congruence. exact (S3 _ _ _ H1 H2 N).
Qed.

Lemma call_transparent firsts b p q :
  sound b -> agree (first_of p firsts) b ->
  exists m b' r, mem_server Fine b q = (b', r) /\ agree m b'
    /\ exists firsts', finish ca_serve [] Fine (firsts, b) (ca_code (p, q)) = ((firsts', b'), r)
       /\ first_of p firsts' = m /\ forall p', p' <> p -> first_of p' firsts' = first_of p' firsts.
Proof.
  intros (S1 & S2 & S3) (A1 & A2 & A3). set (a := first_of p firsts) in *.
  destruct q as [s|s k|s]; cbn [ca_call to_first mem_call to_second bind finish ca_server hd tl fst snd]; fold a.
  - cbn [mem_server]. destruct (entry s (keys_of a)) as [k|] eqn:Ea.
    + pose proof (A1 _ _ Ea) as Eb. rewrite Eb. destruct (String.eqb_spec k "") as [->|N].
      * exists a, b, (Got "" (Some WasDeleted)). split; [reflexivity|]. split; [split; [exact A1|split; assumption]|].
        cbn. rewrite Eb. cbn. eexists. split; [reflexivity|]. split; [apply first_same|]. intros; apply first_other; congruence.
      * exists a, b, (Got k None). split; [reflexivity|]. split; [split; [exact A1|split; assumption]|].
        cbn. eexists. split; [reflexivity|]. split; [apply first_same|]. intros; apply first_other; congruence.
    + destruct (entry s (keys_of b)) as [k|] eqn:Eb.
      * destruct (String.eqb_spec k "") as [->|N].
        -- exists a, b, (Got "" (Some WasDeleted)). split; [reflexivity|]. split; [split; [exact A1|split; assumption]|].
           cbn. rewrite Eb. cbn. eexists. split; [reflexivity|]. split; [apply first_same|]. intros; apply first_other; congruence.
        -- assert (M : member k (used a) = false).
           { destruct (member k (used a)) eqn:M; [|reflexivity]. exfalso. exact (A3 s k M Eb Ea). }
           exists (mk_mem (enter s k (keys_of a)) (k :: used a)), b, (Got k None). split; [reflexivity|]. split.
           ++ split; [|split]; cbn [keys_of used].
              ** intros t k' H. rewrite entry_enter in H. destruct (String.eqb_spec s t); [congruence|exact (A1 _ _ H)].
              ** intros k' H. rewrite member_cons in H. destruct (String.eqb_spec k' k) as [Ek|]; [subst k'|]; [exact (S1 _ _ Eb N)|exact (A2 _ H)].
              ** intros t k' H Ht. rewrite member_cons in H. rewrite entry_enter. destruct (String.eqb_spec s t); [discriminate|].
                 destruct (String.eqb_spec k' k) as [Ek|]; [subst k'|]; [|exact (A3 _ _ H Ht)]. exfalso. apply n. exact (S3 _ _ _ Eb Ht N).
           ++ cbn. rewrite Eb. destruct (String.eqb_spec k ""); [congruence|]. cbn [finish error_of key_of bind hd tl ca_server fst snd].
              rewrite first_same. cbn [mem_server]. destruct (String.eqb_spec k ""); [congruence|]. rewrite M, Ea. cbn.
              eexists. split; [reflexivity|]. split; [apply first_same|]. intros. rewrite !first_other by congruence. reflexivity.
      * exists a, b, (Got "" (Some NotFound)). split; [reflexivity|]. split; [split; [exact A1|split; assumption]|].
        cbn. rewrite Eb. cbn. eexists. split; [reflexivity|]. split; [apply first_same|]. intros; apply first_other; congruence.
  - destruct (mem_server Fine b (Set_ s k)) as [b' r] eqn:E. cbn [mem_server] in E.
    destruct (String.eqb_spec k "") as [->|N].
    { injection E as <- <-. exists a, b, (Did (Some InvalidKey)). split; [reflexivity|]. split; [split; [exact A1|split; assumption]|].
      cbn. eexists. split; [reflexivity|]. split; reflexivity. }
    destruct (member k (used b)) eqn:M.
    { injection E as <- <-. exists a, b, (Did (Some KeyUsed)). split; [reflexivity|]. split; [split; [exact A1|split; assumption]|].
      cbn. eexists. split; [reflexivity|]. split; reflexivity. }
    destruct (entry s (keys_of b)) as [k0|] eqn:Eb; injection E as <- <-.
    { exists a, b, (Did (Some KeyExists)). split; [reflexivity|]. split; [split; [exact A1|split; assumption]|].
      cbn. eexists. split; [reflexivity|]. split; reflexivity. }
    assert (Ma : member k (used a) = false).
    { destruct (member k (used a)) eqn:Ma; [|reflexivity]. rewrite (A2 _ Ma) in M. discriminate. }
    assert (Ea : entry s (keys_of a) = None).
    { destruct (entry s (keys_of a)) eqn:Ea; [|reflexivity]. rewrite (A1 _ _ Ea) in Eb. discriminate. }
    exists (mk_mem (enter s k (keys_of a)) (k :: used a)), (mk_mem (enter s k (keys_of b)) (k :: used b)), (Did None). split; [reflexivity|]. split.
    + split; [|split]; cbn [keys_of used].
      * intros t k' H. rewrite entry_enter in *. destruct (String.eqb_spec s t); [exact H|exact (A1 _ _ H)].
      * intros k' H. rewrite member_cons in *. destruct (String.eqb_spec k' k) as [Ek|]; [subst k'|]; [reflexivity|exact (A2 _ H)].
      * intros t k' H Ht. rewrite entry_enter in *. destruct (String.eqb_spec s t); [discriminate|]. rewrite member_cons in H.
        destruct (String.eqb_spec k' k) as [Ek|]; [subst k'|]; [|exact (A3 _ _ H Ht)]. rewrite (S1 _ _ Ht N) in M. discriminate.
    + cbn [bind error_of]. unfold to_first. cbn [finish hd tl]. cbn [ca_server fst snd]. fold a. cbn [mem_server]. destruct (String.eqb_spec k ""); [congruence|]. rewrite Ma, Ea. cbn.
      eexists. split; [reflexivity|]. split; [apply first_same|]. intros; apply first_other; congruence.
  - exists (mk_mem (enter s "" (keys_of a)) (used a)), (mk_mem (enter s "" (keys_of b)) (used b)), (Did None). split; [reflexivity|]. split.
    + split; [|split]; cbn [keys_of used].
      * intros t k' H. rewrite entry_enter in *. destruct (String.eqb_spec s t); [exact H|exact (A1 _ _ H)].
      * exact A2.
      * intros t k' H Ht. rewrite entry_enter in *. destruct (String.eqb_spec s t); [discriminate|exact (A3 _ _ H Ht)].
    + cbn. fold a. eexists. split; [reflexivity|]. split; [apply first_same|]. intros; apply first_other; congruence.
Qed.

Lemma transparent_from cs : forall now firsts b, ascending now cs -> sound b ->
  agree (first_of now firsts) b -> (forall p, now < p -> first_of p firsts = mem_new) ->
  one_by_one ca_serve ca_code Fine (firsts, b) cs = one_by_one mem_server mem_call Fine b (map snd cs).
Proof.
  induction cs as [|[p q] cs IH]; intros now firsts b Ha Hs Hg Hn; [reflexivity|]. destruct Ha as [Hp Ha].
  assert (Hg' : agree (first_of p firsts) b).
  { destruct (Nat.eq_dec p now) as [->|]; [exact Hg|]. rewrite Hn by lia. apply agree_new. }
  destruct (call_transparent firsts b p q Hs Hg') as (m & b' & r & E & G & firsts' & Ef & F1 & F2).
  pose proof (sound_step _ _ _ _ _ Hs E) as Hs'.
  change (one_by_one ca_serve ca_code Fine (firsts, b) ((p, q) :: cs)) with
    (let (s', x) := finish ca_serve [] Fine (firsts, b) (ca_code (p, q)) in x :: one_by_one ca_serve ca_code Fine s' cs).
  rewrite Ef. cbn [map snd one_by_one mem_call finish hd tl]. rewrite E. f_equal. apply (IH p); [exact Ha|exact Hs'|rewrite F1; exact G|].
  intros p' Hp'. rewrite F2 by lia. apply Hn. lia.
Qed.
Lemma sound_new : sound mem_new.
Proof. split; [|split]; intros; try discriminate; reflexivity. Qed.

(** * Calls that overlap, in one process that may be restarted *)

Definition get_second (p : nat) (s : string) : prog (ca_ask kop) (ca_answer kout) kout :=
  bind (to_second (mem_call (Get s))) (fun r2 =>
    match error_of r2 with
    | Some e => Ret (Got "" (Some e))
    | None => bind (to_first p (Set_ s (key_of r2))) (fun r3 => Ret (Got (key_of r2) (error_of r3)))
    end).
Definition get_fill (p : nat) (s k : string) : prog (ca_ask kop) (ca_answer kout) kout :=
  bind (to_first p (Set_ s k)) (fun r3 => Ret (Got k (error_of r3))).

Definition gone_in (tr : list (seen (nat * kop) kout)) (bound : nat) (s : string) : Prop :=
  exists i from p, i < bound /\ ended tr i from (p, Delete s) (Did None).
(** Filling the cache for the subject cannot bring it back. *)
Definition harmless (st : ca_state) (now : nat) (tr : list (seen (nat * kop) kout)) (s : string) : Prop :=
  entry s (keys_of (snd st)) <> Some "" \/ entry s (keys_of (first_of now (fst st))) <> None \/ ~ gone_in tr (length tr) s.

Definition phase (st : ca_state) (now : nat) (tr : list (seen (nat * kop) kout)) (n : nat) (q : kop) (pr : prog (ca_ask kop) (ca_answer kout) kout) : Prop :=
  pr = ca_code (now, q)
  \/ (exists s, q = Get s /\ pr = get_second now s)
  \/ (exists s k, q = Get s /\ pr = get_fill now s k /\ ~ gone_in tr n s /\ harmless st now tr s)
  \/ (exists s k, q = Set_ s k /\ pr = to_first now (Set_ s k) /\ ~ gone_in tr n s /\ harmless st now tr s)
  \/ (exists s, q = Delete s /\ pr = to_first now (Delete s) /\ entry s (keys_of (snd st)) = Some "").

Definition tidy (st : ca_state) (now : nat) (tr : list (seen (nat * kop) kout)) : Prop :=
  (forall s, gone_in tr (length tr) s -> entry s (keys_of (snd st)) = Some ""
      /\ (entry s (keys_of (first_of now (fst st))) = None \/ entry s (keys_of (first_of now (fst st))) = Some ""))
  /\ (forall p, now < p -> first_of p (fst st) = mem_new)
  /\ (forall i from o r, ended tr i from o r -> from < i)
  /\ honoured tr.

Definition cache_ok (now : nat) (w : world ca_state (ca_ask kop) (ca_answer kout) (nat * kop) kout) : Prop :=
  tidy (state w) now (trace w)
  /\ forall n p q pr, In (n, ((p, q), pr)) (running w) ->
     nth_error (trace w) n = Some (Began (p, q)) /\ p <= now /\ (p = now -> phase (state w) now (trace w) n q pr).

Lemma gone_began tr o bound s : gone_in (tr ++ [Began o]) bound s <-> gone_in tr bound s.
Proof.
  split; intros (i & from & p & L & H).
  - apply ended_began in H. exists i, from, p. auto.
  - exists i, from, p. split; [exact L|apply nth_app_keep; exact H].
Qed.
Lemma gone_before tr o s : gone_in (tr ++ [Began o]) (length (tr ++ [Began o])) s -> gone_in tr (length tr) s.
Proof.
  intros (i & from & p & L & H). apply ended_began in H. exists i, from, p. split; [apply nth_in_range in H; exact H|exact H].
Qed.
Lemma gone_done tr n o r bound s : bound <= length tr -> gone_in (tr ++ [Done n o r]) bound s <-> gone_in tr bound s.
Proof.
  intros Lb. split; intros (i & from & p & L & H).
  - apply ended_app in H. destruct H as [H|(-> & _)]; [|lia]. exists i, from, p. auto.
  - exists i, from, p. split; [exact L|apply nth_app_keep; exact H].
Qed.

Lemma tidy_began st now tr o : tidy st now tr -> tidy st now (tr ++ [Began o]).
Proof.
  intros (T1 & T2 & T3 & T4). split; [|split; [exact T2|split]].
  - intros s H. apply gone_before in H. exact (T1 s H).
  - intros i from q r H. apply ended_began in H. exact (T3 _ _ _ _ H).
  - intros i f0 p0 s Hi j from p q r L Hj. apply ended_began in Hi, Hj. exact (T4 _ _ _ _ Hi _ _ _ _ _ L Hj).
Qed.
Lemma phase_began st now tr n q pr o : phase st now tr n q pr -> phase st now (tr ++ [Began o]) n q pr.
Proof.
  assert (H0 : forall s, harmless st now tr s -> harmless st now (tr ++ [Began o]) s).
  { intros s [H|[H|H]]; [left; exact H|right; left; exact H|right; right].
    intros G. apply gone_before in G. exact (H G). }
  intros [H|[H|[(s & k & E1 & E2 & G & Hh)|[(s & k & E1 & E2 & G & Hh)|H]]]].
  - left; exact H.
  - right; left; exact H.
  - right; right; left. exists s, k. repeat split; auto. intros C. apply G. exact (proj1 (gone_began _ _ _ _) C).
  - right; right; right; left. exists s, k. repeat split; auto. intros C. apply G. exact (proj1 (gone_began _ _ _ _) C).
  - right; right; right; right; exact H.
Qed.

(** Facts about the subjects of a state only grow: used when another call makes a request. *)
Definition grows (st st' : ca_state) (now : nat) : Prop :=
  (forall s, entry s (keys_of (snd st)) = Some "" -> entry s (keys_of (snd st')) = Some "")
  /\ (forall s, entry s (keys_of (first_of now (fst st))) <> None -> entry s (keys_of (first_of now (fst st'))) <> None)
  /\ (forall p, now < p -> first_of p (fst st') = first_of p (fst st)).

Lemma mem_grows f m q m' r : mem_server f m q = (m', r) ->
  (forall s, entry s (keys_of m) = Some "" -> entry s (keys_of m') = Some "")
  /\ (forall s, entry s (keys_of m) <> None -> entry s (keys_of m') <> None).
Proof.
  destruct q as [x|x k|x]; cbn [mem_server].
  - intros [= <- <-]. auto.
  - destruct (String.eqb k ""); [intros [= <- <-]; auto|]. destruct (member k (used m)); [intros [= <- <-]; auto|].
    destruct (entry x (keys_of m)) eqn:E; intros [= <- <-]; [auto|]. cbn [keys_of]. split; intros s H; rewrite entry_enter;
      destruct (String.eqb_spec x s); subst; congruence.
  - intros [= <- <-]. cbn [keys_of]. split; intros s H; rewrite entry_enter; destruct (String.eqb_spec x s); congruence.
Qed.
Lemma server_grows f st q st' a now : (forall p q0, q = First p q0 -> p = now) -> ca_serve f st q = (st', a) -> grows st st' now.
Proof.
  intros Hp. destruct st as [l b]. destruct q as [p q|q]; cbn [ca_server fst snd].
  - rewrite (Hp p q eq_refl). destruct (mem_server Fine (first_of now l) q) as [m r] eqn:E. intros [= <- <-].
    destruct (mem_grows _ _ _ _ _ E) as [G1 G2]. split; [auto|]. cbn [fst snd]. rewrite first_same. split; [exact G2|].
    intros p' H. apply first_other. lia.
  - destruct (mem_server f b q) as [m r] eqn:E. intros [= <- <-]. destruct (mem_grows _ _ _ _ _ E) as [G1 G2]. split; [exact G1|]. split; auto.
Qed.

Definition request_ok (st : ca_state) (now : nat) (tr : list (seen (nat * kop) kout)) (q : ca_ask kop) : Prop :=
  match q with
  | First p q => p = now /\ match q with Set_ s _ => harmless st now tr s | _ => True end
  | Second _ => True
  end.
Lemma request_first st now tr q p q0 : request_ok st now tr q -> q = First p q0 -> p = now.
Proof. intros H ->. apply H. Qed.

Lemma tidy_request f st now tr q st' a : tidy st now tr -> request_ok st now tr q -> ca_serve f st q = (st', a) -> tidy st' now tr.
Proof.
  intros (T1 & T2 & T3 & T4) Hq E.
  destruct (server_grows f st q st' a now (fun p q0 => request_first _ _ _ _ _ _ Hq) E) as (G1 & G2 & G3).
  split; [|split; [|split; [exact T3|exact T4]]].
  - intros s Hs. destruct (T1 s Hs) as [M Fs]. split; [exact (G1 s M)|].
    destruct st as [l b]. cbn [fst snd] in *. destruct q as [p q|q]; cbn [ca_server fst snd] in E.
    + destruct Hq as [-> Hq]. destruct (mem_server Fine (first_of now l) q) as [m r] eqn:Em. injection E as <- <-. cbn [fst]. rewrite first_same.
      destruct q as [x|x k|x]; cbn [mem_server] in Em.
      * injection Em as <- <-. exact Fs.
      * destruct (String.eqb k ""); [injection Em as <- <-; exact Fs|]. destruct (member k (used (first_of now l))); [injection Em as <- <-; exact Fs|].
        destruct (entry x (keys_of (first_of now l))) eqn:Ex; injection Em as <- <-; [exact Fs|]. cbn [keys_of]. rewrite entry_enter.
        destruct (String.eqb_spec x s) as [->|]; [|exact Fs]. exfalso. destruct Hq as [H|[H|H]]; cbn [fst snd] in H; [exact (H M)|exact (H Ex)|exact (H Hs)].
      * injection Em as <- <-. cbn [keys_of]. rewrite entry_enter. destruct (String.eqb x s); [right; reflexivity|exact Fs].
    + destruct (mem_server f b q) as [m r]. injection E as <- <-. exact Fs.
  - intros p Hp. rewrite G3 by exact Hp. exact (T2 p Hp).
Qed.

Lemma tidy_done st now tr n p q r : tidy st now tr -> n < length tr ->
  (forall s, q = Delete s -> r = Did None -> entry s (keys_of (snd st)) = Some "" /\ entry s (keys_of (first_of now (fst st))) = Some "") ->
  (forall s, gone_in tr n s -> (q = Get s -> r = Got "" (Some WasDeleted)) /\ (forall k, q = Set_ s k -> r <> Did None)) ->
  tidy st now (tr ++ [Done n (p, q) r]).
Proof.
  intros (T1 & T2 & T3 & T4) Ln Hd Hr. split; [|split; [exact T2|split]].
  - intros s (i & from & p0 & _ & H). apply ended_app in H. destruct H as [H|(-> & -> & Eq & <-)].
    + apply T1. exists i, from, p0. split; [apply nth_in_range in H; exact H|exact H].
    + injection Eq as -> <-. destruct (Hd s eq_refl eq_refl) as [D1 D2]. split; [exact D1|right; exact D2].
  - intros i from o x H. apply ended_app in H. destruct H as [H|(-> & -> & _)]; [exact (T3 _ _ _ _ H)|exact Ln].
  - intros i f0 p0 s Hi j from p1 q1 r1 L Hj. apply ended_app in Hj. destruct Hj as [Hj|(-> & -> & Eq & ->)].
    + apply ended_app in Hi. destruct Hi as [Hi|(-> & _)].
      * exact (T4 _ _ _ _ Hi _ _ _ _ _ L Hj).
      * apply T3 in Hj as L'. apply nth_in_range in Hj. lia.
    + injection Eq as -> ->. apply (Hr s). apply ended_app in Hi. destruct Hi as [Hi|(-> & _)]; [|lia].
      exists i, f0, p0. auto.
Qed.

Lemma harmless_grow st st' now tr tr' s : grows st st' now -> tidy st now tr ->
  (gone_in tr' (length tr') s -> gone_in tr (length tr) s \/ entry s (keys_of (first_of now (fst st'))) <> None) ->
  harmless st now tr s -> harmless st' now tr' s.
Proof.
  intros (G1 & G2 & G3) (T1 & _) Hg H.
  destruct (entry s (keys_of (first_of now (fst st')))) as [k|] eqn:Ef; [right; left; congruence|].
  destruct H as [H|[H|H]].
  - right; right. intros G. destruct (Hg G) as [G'|C]; [|congruence]. destruct (T1 s G') as [M _]. exact (H M).
  - exfalso. exact (G2 s H Ef).
  - right; right. intros G. destruct (Hg G) as [G'|C]; [exact (H G')|congruence].
Qed.
Lemma phase_grow st st' now tr tr' n q pr : grows st st' now -> tidy st now tr -> n <= length tr ->
  (forall s, gone_in tr' n s -> gone_in tr n s) ->
  (forall s, gone_in tr' (length tr') s -> gone_in tr (length tr) s \/ entry s (keys_of (first_of now (fst st'))) <> None) ->
  phase st now tr n q pr -> phase st' now tr' n q pr.
Proof.
  intros Hgr Ht Ln Hb Hg [H|[H|[(s & k & E1 & E2 & G & Hh)|[(s & k & E1 & E2 & G & Hh)|(s & E1 & E2 & M)]]]].
  - left; exact H.
  - right; left; exact H.
  - right; right; left. exists s, k. split; [exact E1|]. split; [exact E2|]. split; [intros C; exact (G (Hb s C))|].
    exact (harmless_grow _ _ _ _ _ _ Hgr Ht (Hg s) Hh).
  - right; right; right; left. exists s, k. split; [exact E1|]. split; [exact E2|]. split; [intros C; exact (G (Hb s C))|].
    exact (harmless_grow _ _ _ _ _ _ Hgr Ht (Hg s) Hh).
  - right; right; right; right. exists s. split; [exact E1|]. split; [exact E2|]. apply Hgr. exact M.
Qed.

(** One request of a running call. *)
Lemma phase_step f st now tr n q ask k st' a : tidy st now tr -> n < length tr -> phase st now tr n q (Ask ask k) -> ca_serve f st ask = (st', a) ->
  request_ok st now tr ask
  /\ match k a with
     | Ret r =>
         (forall s, q = Delete s -> r = Did None -> entry s (keys_of (snd st')) = Some "" /\ entry s (keys_of (first_of now (fst st'))) = Some "")
         /\ (forall s, gone_in tr n s -> (q = Get s -> r = Got "" (Some WasDeleted)) /\ (forall k', q = Set_ s k' -> r <> Did None))
     | pr => phase st' now tr n q pr
     end.
Proof.
  intros HT Ln Hph E. pose proof HT as (T1 & T2 & T3 & T4).
  assert (Gl : forall s, gone_in tr n s -> gone_in tr (length tr) s) by (intros s (i & from & p & L & H); exists i, from, p; split; [lia|exact H]).
  destruct st as [l b].
  destruct Hph as [H|[(s & -> & H)|[(s & x & -> & H & G & Hh)|[(s & x & -> & H & G & Hh)|(s & -> & H & M)]]]].
  - destruct q as [s|s x|s]; cbn [ca_call to_first to_second mem_call bind] in H; injection H as -> ->; cbn [ca_server fst snd] in E.
    + split; [split; [reflexivity|exact Logic.I]|]. cbn [mem_server] in E. injection E as <- <-. cbn [bind].
      destruct (entry s (keys_of (first_of now l))) as [x|] eqn:Ef; [destruct (String.eqb_spec x "") as [->|N]|]; cbn [error_of key_of].
      * right; left. exists s. split; reflexivity.
      * split; [discriminate|]. intros t Ht. split; [|discriminate]. intros [= <-]. exfalso. destruct (T1 s (Gl s Ht)) as [_ [C|C]]; cbn [fst] in C; congruence.
      * right; left. exists s. split; reflexivity.
    + split; [exact Logic.I|]. destruct (mem_server f b (Set_ s x)) as [b' r] eqn:Em. injection E as <- <-. cbn [bind].
      destruct (error_of r) as [e|] eqn:Er.
      * split; [discriminate|]. intros t Ht. split; [discriminate|discriminate].
      * cbn [mem_server] in Em. destruct (String.eqb_spec x ""); [injection Em as <- <-; discriminate|].
        destruct (member x (used b)); [injection Em as <- <-; discriminate|]. destruct (entry s (keys_of b)) eqn:Eb; injection Em as <- <-; [discriminate|].
        assert (Ng : ~ gone_in tr (length tr) s) by (intros C; destruct (T1 s C) as [M _]; cbn [snd] in M; congruence).
        right; right; right; left. exists s, x. split; [reflexivity|]. split; [reflexivity|]. split; [intros C; exact (Ng (Gl s C))|].
        right; right. exact Ng.
    + split; [exact Logic.I|]. cbn [mem_server] in E. injection E as <- <-. cbn [bind error_of].
      right; right; right; right. exists s. split; [reflexivity|]. split; [reflexivity|]. cbn [snd keys_of]. apply entry_same.
  - unfold get_second in H. cbn [to_second mem_call bind] in H. injection H as -> ->. split; [exact Logic.I|].
    cbn [ca_server fst snd mem_server] in E. injection E as <- <-. cbn [bind].
    destruct (entry s (keys_of b)) as [x|] eqn:Eb; [destruct (String.eqb_spec x "") as [->|N]|]; cbn [error_of key_of].
    + split; [discriminate|]. intros t Ht. split; [reflexivity|discriminate].
    + assert (Ng : ~ gone_in tr (length tr) s) by (intros C; destruct (T1 s C) as [M _]; cbn [snd] in M; congruence).
      right; right; left. exists s, x. split; [reflexivity|]. split; [reflexivity|]. split; [intros C; exact (Ng (Gl s C))|]. right; right. exact Ng.
    + split; [discriminate|]. intros t Ht. split; [|discriminate]. intros [= <-]. destruct (T1 s (Gl s Ht)) as [M _]. cbn [snd] in M. congruence.
  - unfold get_fill in H. cbn [to_first bind] in H. injection H as -> ->. split; [split; [reflexivity|exact Hh]|].
    cbn [ca_server fst snd] in E. destruct (mem_server Fine (first_of now l) (Set_ s x)) as [m r]. injection E as <- <-. cbn [bind].
    split; [discriminate|]. intros t Ht. split; [|discriminate]. intros [= <-]. exfalso. exact (G Ht).
  - unfold to_first in H. injection H as -> ->. split; [split; [reflexivity|exact Hh]|].
    cbn [ca_server fst snd] in E. destruct (mem_server Fine (first_of now l) (Set_ s x)) as [m r]. injection E as <- <-.
    split; [discriminate|]. intros t Ht. split; [discriminate|]. intros k' [= <- <-]. exfalso. exact (G Ht).
  - unfold to_first in H. injection H as -> ->. split; [split; [reflexivity|exact Logic.I]|].
    cbn [ca_server fst snd mem_server] in E. injection E as <- <-. cbn [snd] in M. split.
    + intros t [= <-] _. cbn [fst snd]. split; [exact M|]. rewrite first_same. apply entry_same.
    + intros t _. split; discriminate.
Qed.

Lemma cache_move now w m rest : cache_ok now w -> one_process ca_serve ca_code now w (m :: rest) ->
  exists now', now <= now' /\ cache_ok now' (do_move ca_serve ca_code w m) /\ one_process ca_serve ca_code now' (do_move ca_serve ca_code w m) rest.
Proof.
  intros [HT HJ] Hm. destruct m as [[p q]|n f]; cbn [one_process] in Hm; destruct Hm as [Hm Hr].
  - exists p. split; [exact Hm|]. split; [|exact Hr]. cbn [do_move].
    assert (Ha : exists ask k, ca_code (p, q) = Ask ask k) by (destruct q; cbn; eauto).
    destruct Ha as (ask & k & Ha). rewrite Ha. cbn [settle]. split; cbn [state running trace].
    + apply tidy_began. destruct HT as (T1 & T2 & T3 & T4). destruct (Nat.eq_dec p now) as [->|N]; [split; [exact T1|split; [exact T2|split; assumption]]|].
      split; [|split; [|split; assumption]].
      * intros s Hs. destruct (T1 s Hs) as [M _]. split; [exact M|]. left. rewrite T2 by lia. reflexivity.
      * intros p' Hp'. apply T2. lia.
    + intros n p' q' pr [H|H].
      * injection H as <- <- <- <-. split; [apply nth_app_last|]. split; [lia|]. intros _. left. symmetry. exact Ha.
      * destruct (HJ _ _ _ _ H) as (H1 & H2 & H3). split; [apply nth_app_keep; exact H1|]. split; [lia|].
        intros ->. assert (p = now) by lia. subst p. apply phase_began. apply H3. reflexivity.
  - exists now. split; [lia|]. split; [|exact Hr]. cbn [do_move].
    destruct (thread n (running w)) as [[[p q] [r|ask k]]|] eqn:Th; [split; assumption| |split; assumption].
    assert (p = now) by exact (Hm _ _ eq_refl). subst p. apply thread_in in Th. destruct (HJ _ _ _ _ Th) as (H1 & _ & H3). specialize (H3 eq_refl).
    pose proof (nth_in_range _ _ _ H1) as Ln.
    destruct (ca_serve f (state w) ask) as [st' a] eqn:E. destruct (phase_step _ _ _ _ _ _ _ _ _ _ HT Ln H3 E) as [Rq Nx].
    pose proof (tidy_request _ _ _ _ _ _ _ HT Rq E) as HT'.
    pose proof (server_grows f (state w) ask st' a now (fun p q0 => request_first _ _ _ _ _ _ Rq) E) as Gr.
    destruct (k a) as [r|ask' k'] eqn:Ek; cbn [settle]; split; cbn [state running trace].
    + apply tidy_done; [exact HT'|exact Ln|apply Nx|apply Nx].
    + intros n' p' q' pr H. apply without_in in H. destruct H as [H Hne]. cbn in Hne. destruct (HJ _ _ _ _ H) as (J1 & J2 & J3).
      split; [apply nth_app_keep; exact J1|]. split; [exact J2|]. intros Hp. specialize (J3 Hp). pose proof (nth_in_range _ _ _ J1) as Ln'.
      eapply phase_grow; [exact Gr|exact HT|lia| | |exact J3].
      * intros s Hs. apply (proj1 (gone_done (trace w) n (now, q) r n' s ltac:(lia))) in Hs. exact Hs.
      * intros s (i & from & p0 & _ & Hs). apply ended_app in Hs. destruct Hs as [Hs|(-> & -> & Eq & <-)].
        -- left. exists i, from, p0. split; [apply nth_in_range in Hs; exact Hs|exact Hs].
        -- right. injection Eq as _ Eq. destruct (proj1 Nx s (eq_sym Eq) eq_refl) as [_ C]. congruence.
    + exact HT'.
    + intros n' p' q' pr [H|H].
      * injection H as <- <- <- <-. split; [exact H1|]. split; [lia|]. intros _. exact Nx.
      * apply without_in in H. destruct H as [H Hne]. destruct (HJ _ _ _ _ H) as (J1 & J2 & J3).
        split; [exact J1|]. split; [exact J2|]. intros Hp. specialize (J3 Hp). pose proof (nth_in_range _ _ _ J1) as Ln'.
        eapply phase_grow; [exact Gr|exact HT|lia|auto|auto|exact J3].
Qed.

Lemma cache_run ms : forall now w, cache_ok now w -> one_process ca_serve ca_code now w ms ->
  honoured (trace (run_moves ca_serve ca_code w ms)).
Proof.
  induction ms as [|m ms IH]; intros now w Hc Ho.
  - apply Hc.
  - destruct (cache_move _ _ _ _ Hc Ho) as (now' & _ & Hc' & Ho'). exact (IH now' _ Hc' Ho').
Qed.
Lemma cache_fresh now : cache_ok now (fresh ([], mem_new)).
Proof.
  split; [|intros n p q pr []]. split; [|split; [|split]].
  - intros s (i & from & p & L & _). cbn in L. lia.
  - reflexivity.
  - intros i from o r H. destruct i; discriminate H.
  - intros i f0 p0 s H. destruct i; discriminate H.
Qed.
