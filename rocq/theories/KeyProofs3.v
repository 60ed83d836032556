(** Proofs about key stores: why PostgreSQL deletes at most one key, and what Vault's
    Delete reaches. *)
From Coq Require Import PeanoNat.
From Verif Require Import Base Crypto Prog KeyStores KeySpec KeyProofs KeyProofs2.
Open Scope string_scope.
Open Scope nat_scope.

(** * PostgreSQL *)

(** At most one row has an empty key, and a deleted row has one. *)
Definition single (t : vault_table) : Prop :=
  (forall s u d e, entry s t = Some ("", d) -> entry u t = Some ("", e) -> s = u)
  /\ (forall s k, entry s t = Some (k, true) -> k = "").
Lemma has_key_entry k x t u d : entry u t = Some (k, d) -> u <> x -> has_key k x t = true.
Proof.
  intros H N. unfold has_key. apply existsb_exists. exists (u, (k, d)). split.
  - induction t as [|[v y] t IH]; cbn in *; [discriminate|]. destruct (String.eqb_spec v u) as [->|]; [left; congruence|right; auto].
  - cbn. rewrite String.eqb_refl. destruct (String.eqb_spec u x); [congruence|reflexivity].
Qed.
Lemma single_step f t q t' r : single t -> pg_store f t q = (t', r) -> single t'.
Proof.
  intros Hs. unfold pg_store.
  assert (I : forall s k, k <> "" -> single (fst (pg_do t (PgInsert s k)))).
  { intros s k Nk. cbn. destruct (entry s t) eqn:E; [exact Hs|]. destruct (has_key k s t); [exact Hs|]. cbn [fst]. split.
    - intros x u d e Hx Hu. rewrite entry_enter in Hx, Hu. destruct (String.eqb_spec s x), (String.eqb_spec s u); try congruence. exact (proj1 Hs _ _ _ _ Hx Hu).
    - intros x k' Hx. rewrite entry_enter in Hx. destruct (String.eqb_spec s x); [congruence|exact (proj2 Hs _ _ Hx)]. }
  assert (U : forall s, single (fst (pg_do t (PgUpdate s)))).
  { intros s. cbn. destruct (entry s t) eqn:E; [|exact Hs]. destruct (has_key "" s t) eqn:Hk; [exact Hs|]. cbn [fst]. split.
    - intros x u d e Hx Hu. rewrite entry_enter in Hx, Hu. destruct (String.eqb_spec s x), (String.eqb_spec s u); try congruence.
      + rewrite (has_key_entry _ s _ _ _ Hu) in Hk by congruence. discriminate.
      + rewrite (has_key_entry _ s _ _ _ Hx) in Hk by congruence. discriminate.
      + exact (proj1 Hs _ _ _ _ Hx Hu).
    - intros x k' Hx. rewrite entry_enter in Hx. destruct (String.eqb_spec s x); [congruence|exact (proj2 Hs _ _ Hx)]. }
  destruct q as [s|s k|s]; cbn [pg_call].
  - cbn [finish hd tl]. destruct f; cbn; intros [= <- <-]; exact Hs.
  - destruct (String.eqb_spec k "") as [->|Nk]; [intros [= <- <-]; exact Hs|]. cbn [finish hd tl]. specialize (I s k Nk).
    destruct f; cbn [pg_server]; destruct (pg_do t (PgInsert s k)) as [t1 a]; cbn [fst] in *; intros H; inversion H; subst; assumption.
  - cbn [finish hd tl]. specialize (U s).
    destruct f; cbn [pg_server]; destruct (pg_do t (PgUpdate s)) as [t1 a]; cbn [fst] in *; intros H; inversion H; subst; assumption.
Qed.
Lemma pg_single ms : single (state (run_moves pg_store mem_call (fresh []) ms)).
Proof.
  assert (W : holds (fun t _ => single t) (fun _ _ _ o p => p = mem_call o) (run_moves pg_store mem_call (fresh []) ms)).
  { apply holds_run; try (intros; assumption); try (intros; reflexivity); try (intros; discriminate).
    - intros f s tr n o q k s' a HI HJ Hn E. injection HJ as -> ->. eapply single_step; eassumption.
    - intros f s tr n o q k s' a n' o' p' HI HJ Hn E HJ' Hn' N. injection HJ as -> ->. exact HJ'.
    - apply holds_fresh. split; intros; discriminate. }
  apply W.
Qed.
Lemma pg_one_deletion ms i j fi fj s u :
  let tr := trace (run_moves pg_store mem_call (fresh []) ms) in
  known_before tr fi s -> ended tr i fi (Delete s) (Did None) ->
  known_before tr fj u -> ended tr j fj (Delete u) (Did None) -> s = u.
Proof.
  intros tr Ks Ds Ku Du.
  destruct (store_holds _ _ _ _ pg_lawful [] ms (fun _ => eq_refl)) as (_ & H & _).
  pose proof (H _ _ _ Ds (or_intror Ks)) as Fs. pose proof (H _ _ _ Du (or_intror Ku)) as Fu.
  destruct (pg_single ms) as [H1 H2].
  unfold pg_fate in Fs, Fu. set (t := state _) in *.
  destruct (entry s t) as [[ks []]|] eqn:Es; try discriminate. destruct (entry u t) as [[ku []]|] eqn:Eu; try discriminate.
  rewrite (H2 _ _ Es) in Es. rewrite (H2 _ _ Eu) in Eu. exact (H1 _ _ _ _ Es Eu).
Qed.

(** * Vault *)

Definition versions_of (p : string) (t : secrets) : list (option string) := match entry p t with Some vs => vs | None => [] end.
Lemma destroy_length vs : forall n l, length (destroy n vs l) = length l.
Proof. intros n l. revert n. induction l as [|v l IH]; intros n; cbn; [reflexivity|f_equal; apply IH]. Qed.
(** The history of calls made one after the other, and the secrets after it. *)
Fixpoint va_hist (t : secrets) (qs : list kop) : secrets * list (kop * kout) :=
  match qs with
  | [] => (t, [])
  | q :: r => let (t', b) := finish va_server [] Fine t (va_call q) in let (t2, h) := va_hist t' r in (t2, (q, b) :: h)
  end.
Lemma va_hist_results qs : forall t, map snd (snd (va_hist t qs)) = one_by_one va_server va_call Fine t qs.
Proof.
  induction qs as [|q qs IH]; intros t; [reflexivity|]. cbn [va_hist one_by_one].
  destruct (finish va_server [] Fine t (va_call q)) as [t' b]. specialize (IH t'). destruct (va_hist t' qs) as [t2 h]. cbn in *. congruence.
Qed.
Lemma va_hist_combine qs t : snd (va_hist t qs) = combine qs (one_by_one va_server va_call Fine t qs).
Proof.
  revert t. induction qs as [|q qs IH]; intros t; [reflexivity|]. cbn [va_hist one_by_one].
  destruct (finish va_server [] Fine t (va_call q)) as [t' b]. specialize (IH t'). destruct (va_hist t' qs) as [t2 h]. cbn in *. congruence.
Qed.
Lemma va_one t q t' b : finish va_server [] Fine t (va_call q) = (t', b) -> forall p,
  length (versions_of p t') = times_set p [(q, b)] + length (versions_of p t).
Proof.
  intros E p. destruct q as [s|s k|s]; cbn [va_call] in E.
  - cbn in E. injection E as <- <-. reflexivity.
  - destruct (String.eqb k ""); [injection E as <- <-; reflexivity|]. unfold va_get in E. cbn in E.
    assert (W : length (versions_of p (enter (url_path s) (versions_of (url_path s) t ++ [Some k])%list t))
        = (if String.eqb (url_path s) p then 1 else 0) + 0 + length (versions_of p t)).
    { unfold versions_of at 1. rewrite entry_enter. destruct (String.eqb_spec (url_path s) p) as [->|]; [rewrite app_length; cbn; lia|reflexivity]. }
    destruct (entry (url_path s) t) as [vs|] eqn:Ee.
    + destruct (last vs None); cbn in E; injection E as <- <-; [reflexivity|]. unfold versions_of at 2 in W. rewrite ?Ee in *. exact W.
    + cbn in E. injection E as <- <-. unfold versions_of at 2 in W. rewrite ?Ee in *. exact W.
  - cbn in E. destruct (entry (url_path s) t) as [vs|] eqn:Ee; injection E as <- <-; [|reflexivity].
    cbn [times_set]. unfold versions_of at 1. rewrite entry_enter. destruct (String.eqb_spec (url_path s) p) as [<-|]; [|reflexivity].
    unfold versions_of. rewrite Ee, destroy_length. reflexivity.
Qed.
Lemma times_set_cons p x h : times_set p (x :: h) = times_set p [x] + times_set p h.
Proof. destruct x as [[s|s k|s] [g e|[e|]]]; cbn; lia. Qed.
Lemma va_count p qs : forall t, length (versions_of p (fst (va_hist t qs))) = times_set p (snd (va_hist t qs)) + length (versions_of p t).
Proof.
  induction qs as [|q qs IH]; intros t; [reflexivity|]. cbn [va_hist].
  destruct (finish va_server [] Fine t (va_call q)) as [t' b] eqn:E. specialize (IH t'). pose proof (va_one _ _ _ _ E p) as O.
  destruct (va_hist t' qs) as [t2 h]. cbn [fst snd] in *. rewrite times_set_cons. lia.
Qed.
Lemma one_app qs : forall qs' t, one_by_one va_server va_call Fine t (qs ++ qs') = (one_by_one va_server va_call Fine t qs ++ one_by_one va_server va_call Fine (fst (va_hist t qs)) qs')%list.
Proof.
  induction qs as [|q qs IH]; intros qs' t; [reflexivity|]. cbn [va_hist one_by_one app].
  destruct (finish va_server [] Fine t (va_call q)) as [t' b]. specialize (IH qs' t'). destruct (va_hist t' qs) as [t2 h]. cbn in *. rewrite IH. reflexivity.
Qed.
Lemma va_delete_reaches t s : let n := length (versions_of (url_path s) t) in
  one_by_one va_server va_call Fine t [Delete s; Get s] = [Did None; match n with
    | 0 => match entry (url_path s) t with None => Got "" (Some NotFound) | Some _ => Got "" (Some WasDeleted) end
    | 1 | 2 => Got "" (Some WasDeleted)
    | _ => match last (versions_of (url_path s) t) None with Some k => Got k None | None => Got "" (Some WasDeleted) end end].
Proof.
  unfold versions_of. cbn. destruct (entry (url_path s) t) as [vs|] eqn:E; cbn; [|rewrite E; reflexivity].
  rewrite entry_same. destruct vs as [|a [|b [|c vs]]]; try reflexivity. cbn [destroy existsb Nat.eqb all_versions length].
  assert (L : forall l n x, 2 < n -> last (destroy n all_versions l) x = last l x).
  { induction l as [|v l IH]; intros n x Hn; [reflexivity|]. cbn [destroy].
    replace (existsb (Nat.eqb n) all_versions) with false by (cbn; destruct n as [|[|[|n]]]; try lia; reflexivity).
    destruct l as [|w l]; [reflexivity|]. specialize (IH (S n) x ltac:(lia)). cbn [destroy] in *. exact IH. }
  specialize (L (c :: vs) 3 None ltac:(lia)). cbn [destroy existsb Nat.eqb all_versions orb] in L. 
  change (last (a :: b :: c :: vs) None) with (last (c :: vs) None). rewrite <- L. cbn.
  destruct (destroy 4 all_versions vs) as [|d l]; [destruct c; reflexivity|]. destruct (last (d :: l) None); reflexivity.
Qed.

(** PostgreSQL, before any deletion: no row has an empty key. *)
Definition no_empty (t : vault_table) : Prop := forall r, In r t -> fst (snd r) <> "".
Lemma in_enter {X} s (x : X) t r : In r (enter s x t) -> In r t \/ r = (s, x).
Proof.
  induction t as [|[u y] t IH]; cbn; [intros [<-|[]]; auto|]. destruct (String.eqb_spec u s) as [->|]; cbn.
  - intros [<-|H]; auto.
  - intros [<-|H]; auto. destruct (IH H); auto.
Qed.
Lemma no_empty_run ms : (forall s, ~ In (Start (Delete s)) ms) -> no_empty (state (run_moves pg_store mem_call (fresh []) ms)).
Proof.
  intros Hd.
  assert (W : forall w, no_empty (state w) -> (forall n o p, In (n, (o, p)) (running w) -> p = mem_call o /\ forall s, o <> Delete s) ->
    no_empty (state (run_moves pg_store mem_call w ms))).
  { induction ms as [|m ms IH]; intros w Hw Hr; [exact Hw|]. cbn [run_moves fold_left]. apply IH.
    - intros s H. apply (Hd s). right. exact H.
    - destruct m as [o|n f]; cbn [do_move settle mem_call state]; [exact Hw|].
      destruct (thread n (running w)) as [[o [b|q k]]|] eqn:T; try exact Hw. apply thread_in in T. destruct (Hr _ _ _ T) as [E No].
      injection E as -> ->. destruct (pg_store f (state w) o) as [t' a] eqn:Es. cbn [settle state].
      destruct o as [s|s k|s]; [|clear No|exfalso; apply (No s); reflexivity]; unfold pg_store in Es; cbn [pg_call] in Es.
      + cbn [finish hd tl] in Es. destruct f; cbn in Es; injection Es as <- <-; exact Hw.
      + destruct (String.eqb_spec k "") as [->|Nk]; [injection Es as <- <-; exact Hw|]. cbn [finish hd tl] in Es.
        assert (I : no_empty (fst (pg_do (state w) (PgInsert s k)))).
        { cbn. destruct (entry s (state w)); [exact Hw|]. destruct (has_key k s (state w)); [exact Hw|]. intros r H. apply in_enter in H. destruct H as [H| ->]; [exact (Hw _ H)|exact Nk]. }
        destruct f; cbn [pg_server] in Es; destruct (pg_do (state w) (PgInsert s k)) as [t1 a1]; cbn [fst] in *; inversion Es; subst; assumption.
    - destruct m as [o|n f]; cbn [do_move settle mem_call running].
      + intros n' o' p' [[= <- <- <-]|H]; [|exact (Hr _ _ _ H)]. split; [reflexivity|]. intros s ->. apply (Hd s). left. reflexivity.
      + destruct (thread n (running w)) as [[o [b|q k]]|] eqn:T; try exact Hr. apply thread_in in T. destruct (Hr _ _ _ T) as [E No].
        injection E as -> ->. destruct (pg_store f (state w) o) as [t' a]. cbn [settle running]. intros n' o' p' H. apply without_in in H. exact (Hr _ _ _ (proj1 H)). }
  apply W; [intros r []|intros n o p []].
Qed.
Lemma no_empty_key t s : no_empty t -> has_key "" s t = false.
Proof.
  intros H. unfold has_key. apply not_true_iff_false. intros E. apply existsb_exists in E. destruct E as (r & Hin & E).
  apply andb_true_iff in E. destruct E as [_ E]. apply String.eqb_eq in E. exact (H _ Hin E).
Qed.
