(** Lemmas about health regions (TxRules.v). *)
From Coq Require Import List ZArith Lia Bool Arith.
From Verif Require Import Keys Fixed PerpTypes Interest InterestFacts Bank BankSystem LiqState TxRules TxFacts.
Import ListNotations.
Open Scope Z_scope.

Definition no_region (w : world) : Prop := forall k a, w_accts w k = Some a -> m_region a = false.

Lemma scan_region_spec acct rest : scan_region acct rest = true ->
  exists j i, nth_error rest j = Some i /\ i_prog i = MANGO /\ i_name i = HealthRegionEnd /\ nth_error (i_accts i) 0 = Some acct /\
    forall k x, (k < j)%nat -> nth_error rest k = Some x -> i_prog x = MANGO /\ allowed_inner (i_name x) = true.
Proof.
  induction rest as [|i r IH]; cbn [scan_region]; intros H; [discriminate|].
  destruct (Z.eqb_spec (i_prog i) MANGO) as [P|P]; cbn [negb] in H; [|discriminate].
  assert (C : (i_name i = HealthRegionEnd /\ nth_error (i_accts i) 0 = Some acct) \/
              (allowed_inner (i_name i) = true /\ scan_region acct r = true)).
  { destruct (i_name i) eqn:N; cbn [allowed_inner andb] in H; try discriminate; try (right; split; [reflexivity|exact H]).
    left. split; [reflexivity|]. destruct (nth_error (i_accts i) 0); [|discriminate]. apply Z.eqb_eq in H. subst; reflexivity. }
  destruct C as [(N & A)|(A & Sc)].
  - exists 0%nat, i. cbn [nth_error]. do 4 (split; [auto|]). intros k x Hk. lia.
  - destruct (IH Sc) as (j & i' & h1 & h2 & h3 & h4 & h5). exists (S j), i'. cbn [nth_error]. do 4 (split; [assumption|]).
    intros [|k] x Hk Hx; [apply some_inj in Hx; subst; auto|apply (h5 k x); [lia|exact Hx]].
Qed.

Lemma region_begin_spec e tx pos w group acct rem w' : region_begin e tx pos w group acct rem = Some w' ->
  exists a f cur init liq_end h, w_accts w acct = Some a /\ m_group a = group /\ is_operational w a = true /\ m_region a = false /\
    nth_error tx pos = Some cur /\ i_prog cur = MANGO /\ scan_region acct (skipn (S pos) tx) = true /\
    e_health e HealthRegionBegin rem w acct = Some (init, liq_end) /\ pre_check (m_liq a) init liq_end = Some f /\
    h = ceil_int init /\ w' = put_acct w acct (set_region (set_liq a f) true h).
Proof.
  unfold region_begin. intros H. inv_opt H. apply some_inj in H.
  apply andb_prop in G0 as [G0 G0']. apply Z.eqb_eq in G0, G1. apply negb_true_iff in G3.
  assert (Hh : z1 = ceil_int z).
  { revert O4. unfold chk_i64. destruct (in_i64b (ceil_int z)); [|discriminate]. intros E. apply some_inj in E. auto. }
  do 6 eexists. split; [reflexivity|]. split; [exact G0|]. split; [exact G0'|]. split; [exact G3|].
  split; [first [reflexivity|eassumption]|]. split; [exact G1|]. split; [exact G2|].
  split; [first [reflexivity|eassumption]|]. split; [first [reflexivity|eassumption]|]. split; [exact Hh|]. symmetry; exact H.
Qed.
Lemma region_end_spec e w acct rem w' : region_end e w acct rem = Some w' ->
  exists a init l, w_accts w acct = Some a /\ m_region a = true /\ e_health e HealthRegionEnd rem w acct = Some (init, l) /\
    post_check (of_int (m_region_health a)) init = true /\ w' = put_acct w acct (set_region a false 0).
Proof.
  unfold region_end. intros H. inv_opt H. apply some_inj in H.
  do 3 eexists. split; [reflexivity|]. split; [exact G0|]. split; [first [reflexivity|eassumption]|]. split; [exact G1|]. symmetry; exact H.
Qed.

(** only [acct] may be in a region, with stored health [h] *)
Definition region_only (w : world) (acct h : Z) : Prop :=
  (forall k a, w_accts w k = Some a -> m_region a = true -> k = acct) /\
  exists a, w_accts w acct = Some a /\ m_region a = true /\ m_region_health a = h.

Lemma flash_end_region e w acct owner args rem w' : flash_end e w acct owner args rem = Some w' ->
  forall k a', w_accts w' k = Some a' -> exists a, w_accts w k = Some a /\ m_region a' = m_region a /\ m_region_health a' = m_region_health a.
Proof.
  intros H. apply flash_end_spec in H.
  destruct H as (nz & tyz & ty & a & w1 & a1 & rate & L & init & lend & f & ps & w2 & a2 & D & post & l2 & toks &
    e1 & e2 & e3 & e4 & e5 & e6 & e7 & e8 & e9 & e10 & e11 & e12 & e13 & e14 & e15 & e16 & e17 & e18 & e19).
  apply apply_changes_frame in e15. destruct e15 as (_ & c2 & _ & _ & _ & _ & c7 & c8 & _).
  pose proof (end_scan_frame _ _ _ _ _ _ _ _ _ _ _ e9) as (_ & s2 & _).
  assert (R : m_region a1 = m_region a /\ m_region_health a1 = m_region_health a).
  { clear - e9. revert e9. generalize (end_vaults (Z.to_nat nz) rem) (end_tokens (Z.to_nat nz) rem) (m_group a) 0.
    induction (end_health (Z.to_nat nz) rem) as [|k ais IH] in w, a, w1, a1, rate, L |- *; cbn [end_scan]; intros vs ts g r0 H.
    - apply some_inj in H. injection H as <- <- <- <-. auto.
    - destruct (w_banks w k) as [b|]; [|apply some_inj in H; injection H as <- <- <- <-; auto].
      inv_opt H. destruct (find_index (fb_vault b) vs); [|apply IH in H; exact H].
      inv_opt H. apply some_inj in H. injection H as <- <- <- <-. apply IH in O3. destruct O3 as (x1 & x2).
      assert (m_region m = m_region a /\ m_region_health m = m_region_health a); [|split; destruct H; congruence].
      unfold ensure_pos in O1. destruct (pos_get (m_toks a) (fb_index b)); [apply some_inj in O1; subst; auto|].
      destruct (Nat.ltb _ _); [|discriminate]. apply some_inj in O1. subst. auto. }
  destruct R as (R1 & R2).
  subst w'. intros k a'. unfold put_acct, put; cbn [w_accts]. destruct (k =? acct) eqn:E.
  - apply Z.eqb_eq in E. subst k. intros H. apply some_inj in H. subst a'. exists a. split; [exact e4|].
    cbn [m_region m_region_health set_toks]. rewrite c7, c8. cbn [m_region m_region_health set_liq]. auto.
  - rewrite c2, s2. intros H. exists a'. auto.
Qed.

(** every call of mango keeps "no account in a region", except a top-level begin *)
Lemma exec_no_region e tx pos w c w' x : nth_error tx pos = Some x -> no_region w -> exec e tx pos w c w' ->
  no_region w' \/ (i_prog x = MANGO /\ i_name c = HealthRegionBegin).
Proof.
  intros Hx N X. destruct X as [acct owner tp ins rem Nm A H|acct owner m1 m2 sp tp ap ins rem amount toks Nm A Ar Lr H
    |acct owner tp rem Nm A H|ins group acct rem Nm A H|acct rem Nm A H|Nm H|n Nm H].
  - left. apply flash_begin_spec in H. destruct H as (a & g & cur & _ & _ & _ & _ & _ & _ & _ & _ & H & _).
    apply begin_loans_ids in H. destruct H as (_ & E & _). intros k a' Hk. rewrite E in Hk. apply (N k a' Hk).
  - left. apply flash_begin_spec in H. destruct H as (a & g & cur & _ & _ & _ & _ & _ & _ & _ & _ & H & _).
    apply begin_loans_ids in H. destruct H as (_ & E & _). intros k a' Hk. rewrite E in Hk. apply (N k a' Hk).
  - left. intros k a' Hk. destruct (flash_end_region _ _ _ _ _ _ _ H k a' Hk) as (a & h1 & h2 & _). rewrite h2. apply (N k a h1).
  - right. apply region_begin_spec in H. destruct H as (a & f & cur & i & l & h & _ & _ & _ & _ & Hc & Hp & _).
    rewrite Hx in Hc. apply some_inj in Hc. subst. auto.
  - apply region_end_spec in H. destruct H as (a & i & l & h1 & h2 & _). rewrite (N acct a h1) in h2. discriminate.
  - left. destruct H as ((_ & H & _) & _). intros k a' Hk. destruct (H k a' Hk) as [(a & h1 & h2 & _)|(_ & h2)]; [|exact h2].
    rewrite h2. apply (N k a h1).
  - left. destruct H as (_ & H & _). intros k a' Hk. destruct (H k a' Hk) as [(a & h1 & h2 & _)|(_ & h2)]; [|exact h2].
    rewrite h2. apply (N k a h1).
Qed.
Lemma foreign_no_region e tx pos i w w' : nth_error tx pos = Some i -> i_prog i <> MANGO ->
  foreign e tx pos i w w' -> no_region w -> no_region w'.
Proof.
  intros Hi Hp F. induction F as [w|w toks w' F IH|w c w1 w' I X F IH]; intros N; [exact N|apply IH, N|].
  destruct (exec_no_region _ _ _ _ _ _ _ Hi N X) as [N'|(P & _)]; [apply IH, N'|contradiction].
Qed.

(** one step inside a region: an allowed instruction *)
Lemma inner_region w w' acct h : inner w w' -> region_only w acct h -> region_only w' acct h.
Proof.
  intros ((_ & O & _) & K) (U & a & h1 & h2 & h3). split.
  - intros k a' Hk R. destruct (O k a' Hk) as [(a0 & q1 & q2 & _)|(_ & q2)]; [|congruence]. apply (U k a0 q1). congruence.
  - destruct (w_accts w' acct) as [a'|] eqn:E; [|destruct (K acct a h1 E)].
    exists a'. split; [reflexivity|]. destruct (O acct a' E) as [(a0 & q1 & q2 & q3)|(q1 & _)]; [|congruence].
    rewrite h1 in q1. apply some_inj in q1. subst a0. split; congruence.
Qed.
Lemma inner_exec e tx p w i w' : exec e tx p w i w' -> allowed_inner (i_name i) = true -> inner w w'.
Proof.
  intros X A. destruct X as [acct owner tp ins rem Nm Ac H|acct owner m1 m2 sp tp ap ins rem amount toks Nm Ac Ar Lr H
    |acct owner tp rem Nm Ac H|ins group acct rem Nm Ac H|acct rem Nm Ac H|Nm H|n Nm H]; try (rewrite Nm in A; discriminate A).
  exact H.
Qed.
Lemma inner_steps e tx p q w w' acct h : steps e tx p q w w' ->
  (forall k x, (p <= k < q)%nat -> nth_error tx k = Some x -> i_prog x = MANGO /\ allowed_inner (i_name x) = true) ->
  region_only w acct h -> region_only w' acct h.
Proof.
  intros S. induction S as [p w|p q w w1 w' S1 S2 IH]; intros A R; [exact R|].
  pose proof (steps_le _ _ _ _ _ _ S2). apply IH; [intros k x Hk; apply A; lia|].
  assert (Hpq : (p <= p < q)%nat) by lia.
  destruct S1 as [i Hi Hp X|i Hi Hp F]; destruct (A p i Hpq Hi) as (P & Al); [|contradiction].
  apply (inner_region w); [|exact R]. apply (inner_exec _ _ _ _ _ _ X Al).
Qed.

(** the state of the transaction *)
Definition rinv (tx : list ix) (p : nat) (w : world) : Prop :=
  no_region w \/ exists acct h, region_only w acct h /\ scan_region acct (skipn p tx) = true.
Lemma tx_step_rinv e tx p w w' : tx_step e tx p w w' -> rinv tx p w -> rinv tx (S p) w'.
Proof.
  intros St [N|(acct & h & R & S)].
  - destruct St as [i Hi Hp X|i Hi Hp F]; [|left; apply (foreign_no_region _ _ _ _ _ _ Hi Hp F N)].
    destruct (exec_no_region _ _ _ _ _ _ _ Hi N X) as [N'|(_ & Nb)]; [left; exact N'|right].
    destruct X as [acct owner tp ins rem Nm A H|acct owner m1 m2 sp tp ap ins rem amount toks Nm A Ar Lr H
    |acct owner tp rem Nm A H|ins group acct rem Nm A H|acct rem Nm A H|Nm H|n Nm H]; try congruence.
    2:{ rewrite Nb in Nm. discriminate Nm. }
    apply region_begin_spec in H. destruct H as (a & f & cur & i0 & l & h & q1 & q2 & q3 & q4 & q5 & q6 & q7 & q8 & q9 & q10 & q11).
    exists acct, h. split; [|exact q7]. subst w'. split.
    + intros k a'. unfold put_acct, put; cbn [w_accts]. destruct (k =? acct) eqn:E; [intros _ _; apply Z.eqb_eq, E|].
      intros Hk Hr. rewrite (N k a' Hk) in Hr. discriminate.
    + unfold put_acct, put; cbn [w_accts]. rewrite Z.eqb_refl. eexists. split; [reflexivity|]. split; reflexivity.
  - destruct St as [i Hi Hp X|i Hi Hp F]; rewrite (skipn_nth _ _ _ Hi) in S; cbn [scan_region] in S.
    2:{ apply Z.eqb_neq in Hp. rewrite Hp in S. discriminate. }
    rewrite Hp in S. change (MANGO =? MANGO) with true in S. cbn [negb] in S.
    assert (C : (i_name i = HealthRegionEnd /\ nth_error (i_accts i) 0 = Some acct) \/
              (allowed_inner (i_name i) = true /\ scan_region acct (skipn (Datatypes.S p) tx) = true)).
    { destruct (i_name i) eqn:N; cbn [allowed_inner andb] in S; try discriminate; try (right; split; [reflexivity|exact S]).
      left. split; [reflexivity|]. destruct (nth_error (i_accts i) 0); [|discriminate]. apply Z.eqb_eq in S. subst; reflexivity. }
    destruct C as [(N & A0)|(A0 & S')].
    + left. destruct X as [acct' owner tp ins rem Nm A H|acct' owner m1 m2 sp tp ap ins rem amount toks Nm A Ar Lr H
        |acct' owner tp rem Nm A H|ins group acct' rem Nm A H|acct' rem Nm A H|Nm H|n Nm H]; try congruence.
      2:{ rewrite N in Nm. discriminate Nm. }
      rewrite A in A0. cbn in A0. apply some_inj in A0. subst acct'.
      apply region_end_spec in H. destruct H as (a & i0 & l & q1 & q2 & q3 & q4 & q5). subst w'.
      intros k a'. unfold put_acct, put; cbn [w_accts]. destruct (k =? acct) eqn:E.
      * intros Hk. apply some_inj in Hk. subst. reflexivity.
      * intros Hk. destruct R as (U & _). destruct (m_region a') eqn:Er; [|reflexivity].
        rewrite (U k a' Hk Er), Z.eqb_refl in E. discriminate.
    + right. exists acct, h. split; [|exact S']. apply (inner_region w); [|exact R]. apply (inner_exec _ _ _ _ _ _ X A0).
Qed.
Lemma steps_rinv e tx p q w w' : steps e tx p q w w' -> rinv tx p w -> rinv tx q w'.
Proof. intros S; induction S as [p w|p q w w1 w' S1 S2 IH]; auto. intros F. apply IH, (tx_step_rinv _ _ _ _ _ S1 F). Qed.
