(** Key stores, continued: the stores of /repo, and the caching decorator. *)
From Coq Require Import PeanoNat.
From Verif Require Import Base Prog KeyStores KeySpec KeyProofs Crypto.
Open Scope string_scope.
Open Scope nat_scope.

(** * In memory *)

Definition mem_fate (m : mem) (x : string) : option (option string) :=
  match entry x (keys_of m) with None => None | Some k => if String.eqb k "" then Some None else Some (Some k) end.
Lemma mem_lawful : lawful False True mem_server mem_fate.
Proof.
  split.
  - intros f s x s' r [= <- <-]. split; [reflexivity|]. left. unfold mem_fate. destruct (entry x (keys_of s)) as [k|]; [|reflexivity].
    destruct (String.eqb k ""); reflexivity.
  - intros f s x k s' r. cbn [mem_server]. destruct (String.eqb_spec k "") as [->|Nk].
    { intros [= <- <-]. repeat split; eauto; discriminate. }
    destruct (member k (used s)).
    { intros [= <- <-]. repeat split; eauto; discriminate. }
    destruct (entry x (keys_of s)) as [k0|] eqn:E; intros [= <- <-].
    { repeat split; eauto; discriminate. }
    assert (X : mem_fate s x = None) by (unfold mem_fate; rewrite E; reflexivity).
    assert (Y : mem_fate (mk_mem (enter x k (keys_of s)) (k :: used s)) x = Some (Some k)).
    { unfold mem_fate. cbn [keys_of]. rewrite entry_same. destruct (String.eqb_spec k ""); [congruence|reflexivity]. }
    split; [|split; [auto|split; [auto|eauto]]]. intros y N. unfold mem_fate. cbn [keys_of]. rewrite entry_other by congruence. reflexivity.
  - intros f s x s' r [= <- <-].
    assert (Y : mem_fate (mk_mem (enter x "" (keys_of s)) (used s)) x = Some None).
    { unfold mem_fate. cbn [keys_of]. rewrite entry_same. reflexivity. }
    split; [|split; [auto|split; [auto|eauto]]]. intros y N. unfold mem_fate. cbn [keys_of]. rewrite entry_other by congruence. reflexivity.
Qed.

Lemma ended_app {O B} (tr : list (seen O B)) n (o : O) (r : B) i from q x : ended (tr ++ [Done n o r]) i from q x ->
  ended tr i from q x \/ i = length tr /\ from = n /\ q = o /\ x = r.
Proof.
  intros H. destruct (nth_app_cases _ _ _ _ H) as [[_ H']|[-> H']]; [left; exact H'|right]. injection H' as -> -> ->. auto.
Qed.
Lemma ended_began {O B} (tr : list (seen O B)) (o : O) i from q x : ended (tr ++ [Began o]) i from q x -> ended tr i from q x.
Proof. intros H. destruct (nth_app_cases _ _ _ _ H) as [[_ H']|[_ H']]; [exact H'|discriminate]. Qed.

Lemma mem_unique ms : keys_are_unique (trace (run_moves mem_server mem_call (fresh mem_new) ms))
  /\ deletes_succeed (trace (run_moves mem_server mem_call (fresh mem_new) ms)).
Proof.
  assert (W : holds (fun m tr => keys_are_unique tr /\ deletes_succeed tr /\ forall i from x k, ended tr i from (Set_ x k) (Did None) -> member k (used m) = true)
     (fun _ _ _ o p => p = mem_call o) (run_moves mem_server mem_call (fresh mem_new) ms)).
  { apply holds_run; try (intros; assumption).
    - intros s tr o (H1 & H2 & H3). split; [|split].
      + intros i j fi fj x y k Hi Hj. apply ended_began in Hi, Hj. exact (H1 _ _ _ _ _ _ _ Hi Hj).
      + intros i from x r H. apply ended_began in H. exact (H2 _ _ _ _ H).
      + intros i from x k H. apply ended_began in H. exact (H3 _ _ _ _ H).
    - intros; reflexivity.
    - intros; discriminate.
    - intros f s tr n o q k s' a (H1 & H2 & H3) HJ Hn E. injection HJ as -> ->.
      assert (M : forall k, member k (used s) = true -> member k (used s') = true).
      { intros k Hk. destruct o as [x|x k'|x]; cbn in E.
        - injection E as <- <-. exact Hk.
        - destruct (String.eqb k' ""); [injection E as <- <-; exact Hk|]. destruct (member k' (used s)); [injection E as <- <-; exact Hk|].
          destruct (entry x (keys_of s)); injection E as <- <-; [exact Hk|]. unfold member in *. cbn [used existsb]. rewrite Hk. apply orb_true_r.
        - injection E as <- <-. exact Hk. }
      assert (N : forall x k, o = Set_ x k -> a = Did None -> member k (used s) = false /\ member k (used s') = true).
      { intros x k -> ->. cbn in E. destruct (String.eqb k ""); [discriminate|]. destruct (member k (used s)) eqn:Em; [discriminate|].
        destruct (entry x (keys_of s)); [discriminate|]. injection E as <-. split; [reflexivity|]. unfold member. cbn [used existsb]. rewrite String.eqb_refl. reflexivity. }
      split; [|split].
      + intros i j fi fj x y k Hi Hj. apply ended_app in Hi, Hj. destruct Hi as [Hi|(-> & _ & Ei & Ri)], Hj as [Hj|(-> & _ & Ej & Rj)].
        * exact (H1 _ _ _ _ _ _ _ Hi Hj).
        * apply H3 in Hi. destruct (N _ _ (eq_sym Ej) (eq_sym Rj)). congruence.
        * apply H3 in Hj. destruct (N _ _ (eq_sym Ei) (eq_sym Ri)). congruence.
        * reflexivity.
      + intros i from x r H. apply ended_app in H. destruct H as [H|(_ & _ & <- & ->)]; [exact (H2 _ _ _ _ H)|]. cbn in E. congruence.
      + intros i from x k H. apply ended_app in H. destruct H as [H|(_ & _ & Eo & Er)]; [apply M; exact (H3 _ _ _ _ H)|].
        apply (N _ _ (eq_sym Eo) (eq_sym Er)).
    - intros f s tr n o q k s' a n' o' p' _ HJ _ _ HJ' _ _. injection HJ as -> ->. exact HJ'.
    - apply holds_fresh. split; [|split].
      + intros i j fi fj x y k H. destruct i; discriminate H.
      + intros i from x r H. destruct i; discriminate H.
      + intros i from x k H. destruct i; discriminate H. }
  destruct W as [(W1 & W2 & _) _]. split; assumption.
Qed.

(** * PostgreSQL *)

Definition pg_fate (t : vault_table) (x : string) : option (option string) :=
  match entry x t with None => None | Some (k, d) => if d then Some None else Some (Some k) end.
Lemma pg_lawful : lawful True False pg_store pg_fate.
Proof.
  split.
  - intros f s x s' r. unfold pg_store. cbn [pg_call finish hd tl]. destruct f; cbn; intros [= <- <-]; (split; [reflexivity|]); auto.
    left. unfold pg_fate. destruct (entry x s) as [[k []]|]; reflexivity.
  - intros f s x k s' r. unfold pg_store. cbn [pg_call]. destruct (String.eqb_spec k "") as [->|Nk].
    { cbn. intros [= <- <-]. repeat split; eauto; discriminate. }
    cbn [finish hd tl].
    destruct (pg_do s (PgInsert x k)) as [t a] eqn:Ed.
    assert (D : (forall y, y <> x -> pg_fate t y = pg_fate s y) /\ (a = PgOk -> pg_fate s x = None /\ pg_fate t x = Some (Some k))
       /\ (pg_fate t x = pg_fate s x \/ pg_fate s x = None /\ pg_fate t x = Some (Some k))).
    { cbn in Ed. destruct (entry x s) as [[k0 d0]|] eqn:E; [injection Ed as <- <-; repeat split; auto; discriminate|].
      destruct (has_key k x s); injection Ed as <- <-; [repeat split; auto; discriminate|].
      assert (X : pg_fate s x = None) by (unfold pg_fate; rewrite E; reflexivity).
      assert (Y : pg_fate (enter x (k, false) s) x = Some (Some k)) by (unfold pg_fate; rewrite entry_same; reflexivity).
      split; [|auto]. intros y N. unfold pg_fate. rewrite entry_other by congruence. reflexivity. }
    destruct D as (D1 & D2 & D3).
    destruct f; cbn [pg_server]; [rewrite Ed|..]; cbn [fst].
    + intros H. assert (t = s') by congruence. subst t. split; [exact D1|]. split; [|split; [exact D3|]].
      * intros ->. destruct a; try discriminate. apply D2. reflexivity.
      * destruct a; injection H as <-; eauto.
    + intros [= <- <-]. repeat split; eauto; discriminate.
    + rewrite Ed. intros [= <- <-]. split; [exact D1|]. split; [discriminate|]. split; [exact D3|eauto].
  - intros f s x s' r. unfold pg_store. cbn [pg_call finish hd tl].
    destruct (pg_do s (PgUpdate x)) as [t a] eqn:Ed.
    assert (D : (forall y, y <> x -> pg_fate t y = pg_fate s y) /\ (pg_fate t x = pg_fate s x \/ pg_fate t x = Some None)
       /\ (a = PgOk -> pg_fate s x <> None -> pg_fate t x = Some None)).
    { cbn in Ed. destruct (entry x s) as [[k0 d0]|] eqn:E.
      - destruct (has_key "" x s); injection Ed as <- <-; [repeat split; auto; discriminate|].
        assert (Y : pg_fate (enter x ("", true) s) x = Some None) by (unfold pg_fate; rewrite entry_same; reflexivity).
        split; [|auto]. intros y N. unfold pg_fate. rewrite entry_other by congruence. reflexivity.
      - injection Ed as <- <-. split; [auto|]. split; [auto|]. intros _ C. exfalso. apply C. unfold pg_fate. rewrite E. reflexivity. }
    destruct D as (D1 & D2 & D3).
    destruct f; cbn [pg_server]; [rewrite Ed|..]; cbn [fst].
    + intros H. assert (t = s') by congruence. subst t. split; [exact D1|]. split; [exact D2|]. split.
      * intros -> [[]|K]. destruct a; try discriminate. apply D3; [reflexivity|exact K].
      * destruct a; injection H as <-; eauto.
    + intros [= <- <-]. split; [reflexivity|]. split; [auto|]. split; [discriminate|eauto].
    + rewrite Ed. intros [= <- <-]. split; [exact D1|]. split; [exact D2|]. split; [discriminate|eauto].
Qed.

(** * DynamoDB *)

Definition dy_fate (d : dynamo) (x : string) : option (option string) :=
  match entry x (fst d) with None => None | Some (k, t) => if (0 <? t)%N then Some None else Some (Some k) end.
Lemma dy_lawful : lawful True True dy_consistent dy_fate.
Proof.
  split.
  - intros [f now] s x s' r. unfold dy_consistent, dy_store. cbn [dy_call finish hd tl fst snd].
    destruct f; cbn [dy_server dy_do fst snd]; destruct (String.eqb x ""); intros [= <- <-]; (split; [reflexivity|]); auto.
    left. unfold dy_fate. cbn [nth]. destruct (entry x (fst s)) as [[k t]|]; [|reflexivity]. destruct (0 <? t)%N; reflexivity.
  - intros [f now] s x k s' r. unfold dy_consistent, dy_store. cbn [dy_call fst snd]. destruct (String.eqb_spec k "") as [->|Nk].
    { cbn. intros [= <- <-]. repeat split; eauto; discriminate. }
    cbn [finish hd tl].
    destruct (dy_do 0 s (DyPut x k)) as [t a] eqn:Ed.
    assert (D : (forall y, y <> x -> dy_fate t y = dy_fate s y) /\ (a = DyOk -> dy_fate s x = None /\ dy_fate t x = Some (Some k))
       /\ (dy_fate t x = dy_fate s x \/ dy_fate s x = None /\ dy_fate t x = Some (Some k))).
    { cbn in Ed. destruct (String.eqb x ""); [injection Ed as <- <-; repeat split; auto; discriminate|].
      destruct (entry x (fst s)) as [[k0 d0]|] eqn:E; [injection Ed as <- <-; repeat split; auto; discriminate|].
      injection Ed as <- <-.
      assert (X : dy_fate s x = None) by (unfold dy_fate; rewrite E; reflexivity).
      assert (Y : dy_fate (enter x (k, 0%N) (fst s), fst s :: snd s) x = Some (Some k)) by (unfold dy_fate; cbn [fst]; rewrite entry_same; reflexivity).
      split; [|auto]. intros y N. unfold dy_fate. cbn [fst]. rewrite entry_other by congruence. reflexivity. }
    destruct D as (D1 & D2 & D3).
    destruct f; cbn [dy_server fst snd]; [rewrite Ed|..].
    + intros H. assert (t = s') by congruence. subst t. split; [exact D1|]. split; [|split; [exact D3|]].
      * intros ->. destruct a; try discriminate. apply D2. reflexivity.
      * destruct a; injection H as <-; eauto.
    + intros [= <- <-]. repeat split; eauto; discriminate.
    + rewrite Ed. intros [= <- <-]. split; [exact D1|]. split; [discriminate|]. split; [exact D3|eauto].
  - intros [f now] s x s' r. unfold dy_consistent, dy_store. cbn [dy_call finish hd tl fst snd].
    destruct (dy_do 0 s (DyUpdate x (N.succ now))) as [t a] eqn:Ed.
    assert (D : (forall y, y <> x -> dy_fate t y = dy_fate s y) /\ (dy_fate t x = dy_fate s x \/ dy_fate t x = Some None)
       /\ (a = DyOk -> dy_fate t x = Some None)).
    { cbn in Ed. destruct (String.eqb x ""); injection Ed as <- <-; [repeat split; auto; discriminate|].
      assert (Y : dy_fate (enter x ("", N.succ now) (fst s), fst s :: snd s) x = Some None).
      { unfold dy_fate. cbn [fst]. rewrite entry_same. destruct (N.ltb_spec 0 (N.succ now)); [reflexivity|lia]. }
      split; [|auto]. intros y N. unfold dy_fate. cbn [fst]. rewrite entry_other by congruence. reflexivity. }
    destruct D as (D1 & D2 & D3).
    destruct f; cbn [dy_server fst snd]; [rewrite Ed|..].
    + intros H. assert (t = s') by congruence. subst t. split; [exact D1|]. split; [exact D2|]. split.
      * intros -> _. destruct a; try discriminate. apply D3; reflexivity.
      * destruct a; injection H as <-; eauto.
    + intros [= <- <-]. split; [reflexivity|]. split; [auto|]. split; [discriminate|eauto].
    + rewrite Ed. intros [= <- <-]. split; [exact D1|]. split; [exact D2|]. split; [discriminate|eauto].
Qed.
