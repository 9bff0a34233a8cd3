(** Lemmas about account authorization. *)
From Coq Require Import List ZArith Lia Bool.
From Verif Require Import Fixed Interest Bank GateTable AuthTable Auth AuthSpec.
Import ListNotations.
Open Scope Z_scope.

Lemma akey_eqb_spec x y : akey_eqb x y = true <-> x = y.
Proof.
  unfold akey_eqb. destruct x as [a b], y as [c d]. cbn. rewrite andb_true_iff, !Z.eqb_eq. split; [intros [-> ->]; reflexivity|].
  intros E. injection E as -> ->. auto.
Qed.
Lemma put_same st k a : put_acct st k a k = a.
Proof. unfold put_acct. destruct (akey_eqb k k) eqn:E; [reflexivity|]. assert (akey_eqb k k = true) by (apply akey_eqb_spec; reflexivity). congruence. Qed.
Lemma put_cases st k a x : (x = k /\ put_acct st k a x = a) \/ (x <> k /\ put_acct st k a x = st x).
Proof.
  unfold put_acct. destruct (akey_eqb x k) eqn:E; [left; apply akey_eqb_spec in E; auto|right]. split; [|reflexivity].
  intros ->. assert (akey_eqb k k = true) by (apply akey_eqb_spec; reflexivity). congruence.
Qed.
Lemma gtrue b u : guard b = Some u -> b = true.
Proof. destruct b; [reflexivity|discriminate]. Qed.
Lemma signed_in e s : signed e s = true <-> In s (e_signers e).
Proof. unfold signed. rewrite existsb_exists. split; [intros (x & Hx & E); apply Z.eqb_eq in E; subst; exact Hx|]. intros H. exists s. split; [exact H|apply Z.eqb_refl]. Qed.

(** a successful instruction passed the check of every account it uses *)
Lemma step_checked e st c st' k r : step e st c = Some st' -> uses c k r ->
  always_fails (c_ix c) = false /\ exists t, In t (touched (c_ix c)) /\ t_role t = r /\ touch_ok e st c t k = true.
Proof.
  unfold step. intros H [Hr Hk]. destruct (guard (negb _)) eqn:G0 in H; [|discriminate]. apply gtrue in G0. apply negb_true_iff in G0.
  destruct (guard (forallb _ _)) eqn:G in H; [|discriminate]. apply gtrue in G. split; [exact G0|].
  apply in_map_iff in Hr as (t & Et & Ht). exists t. split; [exact Ht|]. split; [exact Et|].
  rewrite forallb_forall in G. specialize (G t Ht). unfold role_ok in G. apply andb_prop in G as [G _].
  rewrite forallb_forall in G. apply G. rewrite Et. exact Hk.
Qed.
Lemma step_effect e st c st' : step e st c = Some st' -> effect e st c = Some st'.
Proof. unfold step. destruct (guard (negb _)); [|discriminate]. destruct (guard (forallb _ _)); [auto|discriminate]. Qed.

Inductive change (e : tenv) (st : accts) (c : call) (k : akey) (st' : accts) : Prop :=
| ch_none : st' k = st k -> change e st c k st'
| ch_new : st k = None -> st' k = Some (new_auth k) -> In (fst k) (e_signers e) -> change e st c k st'
| ch_edit a a' n d t x : st k = Some a -> st' k = Some a' -> c_ix c = Ix_account_edit -> c_key c RAccount = [k] ->
    c_arg c = AEdit n d t x -> edit e a n d t x = Some a' -> In (au_owner a) (e_signers e) -> operational e a = true -> change e st c k st'
| ch_freeze a f : st k = Some a -> st' k = Some (set_freeze e a f) -> freezes c k f -> In (e_admin e) (e_signers e) -> change e st c k st'
| ch_close a : st k = Some a -> st' k = None -> In (au_owner a) (e_signers e) -> operational e a = true -> change e st c k st'.

Lemma step_change e st c st' k : step e st c = Some st' -> change e st c k st'.
Proof.
  intros H. pose proof (step_effect _ _ _ _ H) as E. unfold effect in E.
  destruct (c_key c RAccount) as [|x [|y z]] eqn:EK; try (injection E as <-; apply ch_none; reflexivity).
  assert (Hchk: In RAccount (map t_role (touched (c_ix c))) -> uses c x RAccount) by (intros Q; split; [exact Q|rewrite EK; left; reflexivity]).
  destruct (c_ix c) eqn:Ei; try (injection E as <-; apply ch_none; reflexivity).
  - (* create *)
    injection E as <-. destruct (put_cases st x (Some (new_auth x)) k) as [[-> Hp]|[_ Hp]]; [|apply ch_none; exact Hp].
    destruct (step_checked _ _ _ _ _ _ H (Hchk ltac:(left; reflexivity))) as [_ (t & Ht & _ & Hok)]. rewrite Ei in Ht. destruct Ht as [<-|[]].
    unfold touch_ok in Hok. cbn [t_who] in Hok. destruct (st x) eqn:Es; [discriminate|]. apply andb_prop in Hok as [H1 H2]. apply Z.eqb_eq in H1.
    apply ch_new; [exact Es|exact Hp|]. apply signed_in. rewrite H1. exact H2.
  - injection E as <-. destruct (put_cases st x (Some (new_auth x)) k) as [[-> Hp]|[_ Hp]]; [|apply ch_none; exact Hp].
    destruct (step_checked _ _ _ _ _ _ H (Hchk ltac:(left; reflexivity))) as [_ (t & Ht & _ & Hok)]. rewrite Ei in Ht. destruct Ht as [<-|[]].
    unfold touch_ok in Hok. cbn [t_who] in Hok. destruct (st x) eqn:Es; [discriminate|]. apply andb_prop in Hok as [H1 H2]. apply Z.eqb_eq in H1.
    apply ch_new; [exact Es|exact Hp|]. apply signed_in. rewrite H1. exact H2.
  - (* edit *)
    destruct (c_arg c) as [|n d t0 x0|] eqn:Ea; try discriminate. destruct (st x) as [a|] eqn:Es; [|discriminate].
    destruct (edit e a n d t0 x0) as [a'|] eqn:Ee; [|discriminate]. injection E as <-.
    destruct (put_cases st x (Some a') k) as [[-> Hp]|[_ Hp]]; [|apply ch_none; exact Hp].
    destruct (step_checked _ _ _ _ _ _ H (Hchk ltac:(left; reflexivity))) as [_ (t & Ht & _ & Hok)]. rewrite Ei in Ht. destruct Ht as [<-|[]].
    unfold touch_ok in Hok. cbn [t_who t_oper] in Hok. rewrite Es in Hok. apply andb_prop in Hok as [Ho Hok]. apply andb_prop in Hok as [H1 H2]. apply Z.eqb_eq in H1.
    eapply ch_edit; try eassumption. apply signed_in. rewrite H1. exact H2.
  - (* freeze *)
    destruct (c_arg c) as [| |f] eqn:Ea; try discriminate. destruct (st x) as [a|] eqn:Es; [|discriminate]. injection E as <-.
    destruct (put_cases st x (Some (set_freeze e a f)) k) as [[-> Hp]|[_ Hp]]; [|apply ch_none; exact Hp].
    destruct (step_checked _ _ _ _ _ _ H (Hchk ltac:(left; reflexivity))) as [_ (t & Ht & _ & Hok)]. rewrite Ei in Ht. destruct Ht as [<-|[]].
    unfold touch_ok in Hok. cbn [t_who t_oper] in Hok. rewrite Es in Hok. cbn [andb] in Hok. apply andb_prop in Hok as [H1 H2]. apply Z.eqb_eq in H1.
    eapply ch_freeze; [exact Es|exact Hp| |]. { split; [exact Ei|]. split; [exact EK|exact Ea]. } apply signed_in. rewrite <- H1. exact H2.
  - (* close *)
    injection E as <-. destruct (put_cases st x None k) as [[-> Hp]|[_ Hp]]; [|apply ch_none; exact Hp].
    destruct (step_checked _ _ _ _ _ _ H (Hchk ltac:(left; reflexivity))) as [_ (t & Ht & _ & Hok)]. rewrite Ei in Ht. destruct Ht as [<-|[]].
    unfold touch_ok in Hok. cbn [t_who t_oper] in Hok. destruct (st x) as [a|] eqn:Es; [|discriminate].
    apply andb_prop in Hok as [Ho Hok]. apply andb_prop in Hok as [H1 H2]. apply Z.eqb_eq in H1.
    eapply ch_close; [exact Es|exact Hp| |exact Ho]. apply signed_in. rewrite H1. exact H2.
Qed.

Lemma runs_snoc st l e c st' : runs st (l ++ [(e, c)]) st' -> exists st1, runs st l st1 /\ step e st1 c = Some st'.
Proof.
  revert st. induction l as [|[e0 c0] l IH]; intros st H; cbn in H; inversion H; subst; clear H.
  - match goal with K : runs _ [] _ |- _ => inversion K; subst end. exists st. split; [constructor|assumption].
  - match goal with K : runs _ (_ ++ _) _ |- _ => apply IH in K as (s & R & S1) end. exists s. split; [econstructor; eassumption|exact S1].
Qed.
Lemma edit_owner e a n d t x a' : edit e a n d t x = Some a' -> au_owner a' = au_owner a /\ au_frozen a' = au_frozen a /\
  au_delegate a' = match d with Some y => y | None => au_delegate a end /\
  ((t = None /\ au_tdelegate a' = au_tdelegate a /\ au_texpiry a' = au_texpiry a) \/
   (exists s y, t = Some s /\ x = Some y /\ au_tdelegate a' = s /\ au_texpiry a' = y /\ y < e_now e + WEEK)).
Proof.
  unfold edit. intros H. destruct (guard (n || _)) eqn:G; [|discriminate].
  destruct t as [s|], x as [y|]; try discriminate.
  - destruct (guard (y <? _)) eqn:G1; [|discriminate]. apply gtrue in G1. apply Z.ltb_lt in G1. injection H as <-. cbn.
    split; [reflexivity|]. split; [reflexivity|]. split; [reflexivity|]. right. exists s, y. auto.
  - injection H as <-. cbn. split; [reflexivity|]. split; [reflexivity|]. split; [reflexivity|]. left. auto.
Qed.
Lemma owner_inv l : forall st, runs no_accts l st -> forall k a, st k = Some a -> au_owner a = fst k.
Proof.
  induction l as [|[e c] l IH] using rev_ind; intros st R k a Hk.
  - inversion R; subst. discriminate.
  - apply runs_snoc in R as (s & R & HS). specialize (IH s R k). destruct (step_change e s c st k HS) as [E|E1 E2 _|b b' n d t x E1 E2 _ _ _ E3 _ _|b f E1 E2 _ _|b E1 E2 _ _].
    + rewrite E in Hk. apply IH. exact Hk.
    + rewrite E2 in Hk. injection Hk as <-. reflexivity.
    + rewrite E2 in Hk. injection Hk as <-. destruct (edit_owner _ _ _ _ _ _ _ E3) as [-> _]. apply IH. exact E1.
    + rewrite E2 in Hk. injection Hk as <-. cbn. apply IH. exact E1.
    + congruence.
Qed.
(** the delegates in force are those last set by the owner *)
Lemma last_grant_snoc l e c k s : last_grant l k s -> (forall s', ~ grants c k s') -> last_grant (l ++ [(e, c)]) k s.
Proof.
  intros (l1 & e0 & c0 & l2 & -> & G & S0 & N) Hn. exists l1, e0, c0, (l2 ++ [(e, c)]). split; [rewrite <- app_assoc; reflexivity|].
  split; [exact G|]. split; [exact S0|]. intros e' c' s' Hin. apply in_app_or in Hin as [Hin|[E|[]]]; [apply (N e'); exact Hin|].
  injection E as <- <-. apply Hn.
Qed.
Lemma last_until_snoc l e c k s x : last_grant_until l k s x -> (forall s' x', ~ grants_until c k s' x') -> last_grant_until (l ++ [(e, c)]) k s x.
Proof.
  intros (l1 & e0 & c0 & l2 & -> & G & S0 & W & N) Hn. exists l1, e0, c0, (l2 ++ [(e, c)]). split; [rewrite <- app_assoc; reflexivity|].
  split; [exact G|]. split; [exact S0|]. split; [exact W|]. intros e' c' s' x' Hin. apply in_app_or in Hin as [Hin|[E|[]]]; [apply (N e'); exact Hin|].
  injection E as <- <-. apply Hn.
Qed.
Lemma grant_changes e st c st' k s : step e st c = Some st' -> grants c k s -> exists a a', st k = Some a /\ st' k = Some a' /\ au_delegate a' = s.
Proof.
  intros H (Ei & EK & n & t & x & Ea). apply step_effect in H. unfold effect in H. rewrite EK, Ei, Ea in H.
  destruct (st k) as [a|] eqn:Es; [|discriminate]. destruct (edit e a n (Some s) t x) as [a'|] eqn:Ee; [|discriminate]. injection H as <-.
  exists a, a'. split; [reflexivity|]. split; [apply put_same|]. apply edit_owner in Ee as (_ & _ & Ee & _). exact Ee.
Qed.
Lemma until_changes e st c st' k s x : step e st c = Some st' -> grants_until c k s x ->
  exists a a', st k = Some a /\ st' k = Some a' /\ au_tdelegate a' = s /\ au_texpiry a' = x.
Proof.
  intros H (Ei & EK & n & d & Ea). apply step_effect in H. unfold effect in H. rewrite EK, Ei, Ea in H.
  destruct (st k) as [a|] eqn:Es; [|discriminate]. destruct (edit e a n d (Some s) (Some x)) as [a'|] eqn:Ee; [|discriminate]. injection H as <-.
  exists a, a'. split; [reflexivity|]. split; [apply put_same|]. apply edit_owner in Ee as (_ & _ & _ & [(? & _)|(s' & y & E1 & E2 & E3 & E4 & _)]); [discriminate|].
  injection E1 as <-. injection E2 as <-. auto.
Qed.
Lemma grants_inv l : forall st, runs no_accts l st -> forall k a, st k = Some a ->
  (au_delegate a = 0 \/ last_grant l k (au_delegate a)) /\
  ((au_tdelegate a = 0 /\ au_texpiry a = 0) \/ last_grant_until l k (au_tdelegate a) (au_texpiry a)).
Proof.
  induction l as [|[e c] l IH] using rev_ind; intros st R k a Hk.
  - inversion R; subst. discriminate.
  - apply runs_snoc in R as (s & R & HS). pose proof (owner_inv _ _ R k) as Ow. specialize (IH s R k).
    assert (Keep: forall b, s k = Some b -> au_delegate b = au_delegate a -> au_tdelegate b = au_tdelegate a -> au_texpiry b = au_texpiry a ->
              (forall s', ~ grants c k s') -> (forall s' x', ~ grants_until c k s' x') ->
              (au_delegate a = 0 \/ last_grant (l ++ [(e, c)]) k (au_delegate a)) /\
              ((au_tdelegate a = 0 /\ au_texpiry a = 0) \/ last_grant_until (l ++ [(e, c)]) k (au_tdelegate a) (au_texpiry a))).
    { intros b Hb E1 E2 E3 N1 N2. destruct (IH b Hb) as [I1 I2]. rewrite E1 in I1. rewrite E2, E3 in I2. split.
      - destruct I1 as [I1|I1]; [left; exact I1|right; apply last_grant_snoc; assumption].
      - destruct I2 as [I2|I2]; [left; exact I2|right; apply last_until_snoc; assumption]. }
    destruct (c_ix c) eqn:Ei;
      try (assert (N1: forall s', ~ grants c k s') by (intros s' (Q & _); congruence);
           assert (N2: forall s' x', ~ grants_until c k s' x') by (intros s' x' (Q & _); congruence);
           destruct (step_change e s c st k HS) as [E|E1 E2 _|b b' n d t x E1 E2 Q _ _ E3 _ _|b f E1 E2 _ _|b E1 E2 _ _];
           [rewrite E in Hk; apply (Keep a); auto
           |rewrite E2 in Hk; injection Hk as <-; cbn; auto
           |congruence
           |rewrite E2 in Hk; injection Hk as <-; apply (Keep b); auto
           |congruence]).
    (* edit *)
    destruct (list_eq_dec (fun x y : akey => match akey_eqb x y as q return akey_eqb x y = q -> _ with
                true => fun Q => left (proj1 (akey_eqb_spec x y) Q)
              | false => fun Q => right (fun R => eq_true_false_abs _ (proj2 (akey_eqb_spec x y) R) Q) end eq_refl) (c_key c RAccount) [k]) as [EK|NK].
    + pose proof (step_effect _ _ _ _ HS) as HE. unfold effect in HE. rewrite EK, Ei in HE. destruct (c_arg c) as [|n d t x|] eqn:Ea; try discriminate.
      destruct (s k) as [b|] eqn:Eb; [|discriminate]. destruct (edit e b n d t x) as [b'|] eqn:Ee; [|discriminate]. injection HE as <-.
      rewrite put_same in Hk. injection Hk as <-.
      assert (Sg: In (fst k) (e_signers e)).
      { rewrite <- (Ow b eq_refl).
        destruct (step_checked e s c _ k RAccount HS) as [_ (tt0 & Ht & _ & Hok)]; [split; [rewrite Ei; left; reflexivity|rewrite EK; left; reflexivity]|].
        rewrite Ei in Ht. destruct Ht as [<-|[]]. unfold touch_ok in Hok. cbn [t_who t_oper] in Hok. rewrite Eb in Hok.
        apply andb_prop in Hok as [_ Hok]. apply andb_prop in Hok as [H1 H2]. apply Z.eqb_eq in H1. rewrite H1. apply signed_in. exact H2. }
      destruct (IH b eq_refl) as [I1 I2]. destruct (edit_owner _ _ _ _ _ _ _ Ee) as (_ & _ & Ed & Et). split.
      * rewrite Ed. destruct d as [y|].
        -- right. exists l, e, c, []. split; [reflexivity|]. split; [split; [exact Ei|split; [exact EK|exists n, t, x; exact Ea]]|].
           split; [exact Sg|]. intros ? ? ? [].
        -- destruct I1 as [I1|I1]; [left; exact I1|right]. apply last_grant_snoc; [exact I1|].
           intros s' (_ & _ & n0 & t0 & x0 & Q). rewrite Ea in Q. discriminate.
      * destruct Et as [(-> & Et1 & Et2)|(s1 & y & -> & -> & Et1 & Et2 & Hw)].
        -- rewrite Et1, Et2. destruct I2 as [I2|I2]; [left; exact I2|right]. apply last_until_snoc; [exact I2|].
           intros s' x' (_ & _ & n0 & d0 & Q). rewrite Ea in Q. discriminate.
        -- right. exists l, e, c, []. split; [reflexivity|].
           split; [split; [exact Ei|split; [exact EK|exists n, d; rewrite Et1, Et2; exact Ea]]|].
           split; [exact Sg|]. split; [rewrite Et2; exact Hw|]. intros ? ? ? ? [].
    + assert (N1: forall s', ~ grants c k s') by (intros s' (_ & Q & _); congruence).
      assert (N2: forall s' x', ~ grants_until c k s' x') by (intros s' x' (_ & Q & _); congruence).
      destruct (step_change e s c st k HS) as [E|E1 E2 _|b b' n d t x E1 E2 _ Q _ _ _ _|b f E1 E2 _ _|b E1 E2 _ _];
        [rewrite E in Hk; apply (Keep a); auto|rewrite E2 in Hk; injection Hk as <-; cbn; auto|congruence
        |rewrite E2 in Hk; injection Hk as <-; apply (Keep b); auto|congruence].
Qed.
(** a frozen account stays frozen *)
Lemma frozen_keeps e st c st' k T : step e st c = Some st' -> e_now e <= T -> ~ freezes c k false -> T - WEEK <= e_now e ->
  (exists a, st k = Some a /\ T <= au_frozen a) -> exists a, st' k = Some a /\ T <= au_frozen a.
Proof.
  intros HS Ht Hn Hlo (a & Ha & Hf). destruct (step_change e st c st' k HS) as [E|E1 E2 _|b b' n d t x E1 E2 _ _ _ E3 _ Q|b f E1 E2 Fr _|b E1 E2 _ Q].
  - exists a. rewrite E. auto.
  - congruence.
  - rewrite Ha in E1. injection E1 as <-. unfold operational in Q. apply Z.ltb_lt in Q. lia.
  - rewrite Ha in E1. injection E1 as <-. exists (set_freeze e a f). split; [exact E2|]. destruct f; [cbn [set_freeze au_frozen]; lia|contradiction].
  - rewrite Ha in E1. injection E1 as <-. unfold operational in Q. apply Z.ltb_lt in Q. lia.
Qed.
