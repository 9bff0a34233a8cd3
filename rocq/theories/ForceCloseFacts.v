(** Lemmas about force-closing borrows. *)
From Coq Require Import List ZArith Lia Bool.
From Verif Require Import OrderTree Keys PerpTypes Interest Bank BankFacts BankInv BankSystem Health HealthSpec HealthFacts HealthMore
  LiqState TokenLiq TokenLiqSpec TokenLiqFacts TokenBankrFacts ForceClose Fixed.
Import ListNotations.
Open Scope Z_scope.

Record fc_run (e : lenv) (s s' : lstate) (mx : Z) (L to from : fx) : Prop := {
  fr_pair : le_ia e <> le_il e;
  fr_mode : borrows_reduce_only (ls_abank s) = false;
  fr_weight : fmul (lp_init_lw (le_a e)) (fee_factor_total (le_a e) (le_l e)) <= lp_init_lw (le_l e);
  fr_owes : native (ls_lbank s) (ls_ee_liab s) < 0;
  fr_has : 0 < native (ls_lbank s) (ls_or_liab s);
  fr_mx : 0 <= mx;
  fr_L : L = Z.max (Z.min (Z.min (of_int mx) (- native (ls_lbank s) (ls_ee_liab s))) (native (ls_lbank s) (ls_or_liab s))) 0;
  fr_to : to = fmul (fdiv (fmul L (le_lop e)) (le_aop e)) (fee_factor_liqor (le_a e) (le_l e));
  fr_from : from = fmul (fdiv (fmul L (le_lop e)) (le_aop e)) (fee_factor_total (le_a e) (le_l e));
  fr_ops : exists lb1 ab1 w1 w2 w3 w4 hc1 h',
    let ab0 := set_totals (ls_abank s) (b_dep (ls_abank s)) (b_bor (ls_abank s)) (b_dust (ls_abank s)) (b_fees (ls_abank s) + (from - to)) in
    deposit_with_dusting (ls_lbank s) (ls_ee_liab s) L (le_now e) = Some (lb1, ls_ee_liab s', w1) /\
    withdraw_with_fee lb1 (ls_or_liab s) L (le_now e) = Some (ls_lbank s', ls_or_liab s', w2) /\
    deposit ab0 (ls_or_asset s) to (le_now e) = Some (ab1, ls_or_asset s', w3) /\
    withdraw_without_fee_with_dusting ab1 (ls_ee_asset s) from (le_now e) = Some (ls_abank s', ls_ee_asset s', w4) /\
    w_loan w2 = 0 /\
    adjust_token_balance (ls_cache s) (le_il e) (native (ls_lbank s') (ls_ee_liab s') - native (ls_lbank s) (ls_ee_liab s)) (le_swl e) = Some hc1 /\
    adjust_token_balance hc1 (le_ia e) (native (ls_abank s') (ls_ee_asset s') - native (ls_abank s) (ls_ee_asset s)) (le_swa e) = Some (ls_cache s') /\
    Health.health (ls_cache s') HLiqEnd = Some h' /\ ls_flag s' = recover (ls_flag s) h' }.
Lemma fc_inv e s force signed lf mx hl s' L to from : force_close_borrows e s force signed lf mx hl = Some (s', (L, to, from)) ->
  fc_run e s s' mx L to from /\ force = true /\ signed = true /\ lf = false /\
  0 <= hl (ls_abank s') (ls_lbank s') (ls_or_asset s') (ls_or_liab s').
Proof.
  intros H. unfold force_close_borrows in H. cbn zeta in H.
  destruct (Z.eqb_spec (le_ia e) (le_il e)) as [|NE]; cbn [negb guard] in H; [discriminate|].
  destruct signed; cbn [guard] in H; [|discriminate]. destruct lf; cbn [negb guard] in H; [discriminate|].
  destruct force; cbn [guard] in H; [|discriminate].
  destruct (borrows_reduce_only (ls_abank s)) eqn:R; cbn [negb guard] in H; [discriminate|].
  match type of H with match guard (?x <=? ?y) with _ => _ end = _ => destruct (Z.leb_spec x y) as [W|]; cbn [guard] in H; [|discriminate] end.
  destruct (Z.ltb_spec (native (ls_lbank s) (ls_ee_liab s)) 0) as [Ln|]; cbn [guard] in H; [|discriminate].
  destruct (Z.ltb_spec 0 (native (ls_lbank s) (ls_or_liab s))) as [On|]; cbn [guard] in H; [|discriminate].
  destruct (Z.leb_spec 0 mx) as [Mx|]; cbn [andb guard] in H; [|discriminate].
  destruct (mx <=? U64_MAX); cbn [guard] in H; [|discriminate].
  set (L0 := Z.max (Z.min (Z.min (of_int mx) (- native (ls_lbank s) (ls_ee_liab s))) (native (ls_lbank s) (ls_or_liab s))) 0) in *.
  destruct (cdiv (fmul L0 (le_lop e)) (le_aop e)) as [base|] eqn:EB; [|discriminate]. apply cdiv_inv in EB as [-> _].
  destruct (deposit_with_dusting _ _ _ _) as [[[lb1 pel] w1]|] eqn:E1; [|discriminate].
  destruct (withdraw_with_fee _ _ _ _) as [[[lb2 pol] w2]|] eqn:E2; [|discriminate].
  destruct (deposit _ _ _ _) as [[[ab1 poa] w3]|] eqn:E3; [|discriminate].
  destruct (withdraw_without_fee_with_dusting _ _ _ _) as [[[ab2 pea] w4]|] eqn:E4; [|discriminate].
  destruct (Z.eqb_spec (w_loan w2) 0) as [WL|]; cbn [guard] in H; [|discriminate].
  destruct (adjust_token_balance (ls_cache s) _ _ _) as [hc1|] eqn:E5; [|discriminate].
  destruct (adjust_token_balance hc1 _ _ _) as [hc2|] eqn:E6; [|discriminate].
  destruct (Health.health hc2 HLiqEnd) as [h'|] eqn:E7; [|discriminate].
  match type of H with match guard (0 <=? ?x) with _ => _ end = _ => destruct (Z.leb_spec 0 x) as [HL|]; cbn [guard] in H; [|discriminate] end.
  apply some_inj in H. apply pair_equal_spec in H as [H Ha]. subst s'. apply pair_equal_spec in Ha as [Ha Ha3]. apply pair_equal_spec in Ha as [Ha1 Ha2].
  subst to from L. cbn [ls_cache ls_flag ls_abank ls_lbank ls_ee_asset ls_ee_liab ls_or_asset ls_or_liab].
  split; [|auto]. constructor; try assumption; try reflexivity.
  cbn [ls_cache ls_flag ls_abank ls_lbank ls_ee_asset ls_ee_liab ls_or_asset ls_or_liab].
  exists lb1, ab1, w1, w2, w3, w4, hc1, h'. cbn zeta. do 8 (split; [assumption|]). reflexivity.
Qed.

(** ** money *)
Lemma fc_money e s s' mx L to from : lenv_ok e -> lstate_ok e s -> fc_run e s s' mx L to from ->
  0 <= L <= of_int mx /\ L <= - native (ls_lbank s) (ls_ee_liab s) /\ L <= native (ls_lbank s) (ls_or_liab s) /\ 0 <= to <= from /\
  from * le_aop e * fone <= L * le_lop e * fee_factor_total (le_a e) (le_l e) /\
  (L - 2 < native (ls_lbank s') (ls_ee_liab s') - native (ls_lbank s) (ls_ee_liab s) < L + ix_round (ls_lbank s)) /\
  (- from - fone - 2 < native (ls_abank s') (ls_ee_asset s') - native (ls_abank s) (ls_ee_asset s) < - from + ix_round (ls_abank s)) /\
  to - fone - 2 < native (ls_abank s') (ls_or_asset s') - native (ls_abank s) (ls_or_asset s) /\
  - L - fone - 2 < native (ls_lbank s') (ls_or_liab s') - native (ls_lbank s) (ls_or_liab s) /\ 0 <= t_ix (ls_or_liab s') /\
  b_fees (ls_abank s') = b_fees (ls_abank s) + (from - to) /\ b_fees (ls_lbank s') = b_fees (ls_lbank s) /\
  bank_moved (ls_lbank s) (ls_lbank s') (ls_ee_liab s) (ls_ee_liab s') (ls_or_liab s) (ls_or_liab s') /\
  bank_moved (ls_abank s) (ls_abank s') (ls_ee_asset s) (ls_ee_asset s') (ls_or_asset s) (ls_or_asset s') /\
  (- 2 * fone < two_claims (ls_lbank s') (ls_ee_liab s') (ls_or_liab s') - two_claims (ls_lbank s) (ls_ee_liab s) (ls_or_liab s) <
    2 * Z.max (b_di (ls_lbank s)) (b_bi (ls_lbank s))) /\
  (- 2 * fone < two_claims (ls_abank s') (ls_ee_asset s') (ls_or_asset s') - two_claims (ls_abank s) (ls_ee_asset s) (ls_or_asset s) <
    2 * Z.max (b_di (ls_abank s)) (b_bi (ls_abank s))).
Proof.
  intros (Ka & Kl & P1 & P2) (ND & SO & Sa & Sl & I1 & I2 & I3 & I4 & F1 & F2) [NE _ _ Ln On Mx HL HT HF Ops]. pose proof fone_pos as FP.
  assert (L1 : 0 <= L <= of_int mx). { rewrite HL. assert (0 <= of_int mx) by (unfold of_int; nia). lia. }
  assert (L2 : L <= - native (ls_lbank s) (ls_ee_liab s)) by (rewrite HL; lia).
  assert (L3 : L <= native (ls_lbank s) (ls_or_liab s)) by (rewrite HL; lia). clear HL.
  pose proof (fft_ge _ _ Ka Kl) as [FF1 FF2].
  assert (M0 : 0 <= fmul L (le_lop e)) by (apply fmul_nonneg; lia).
  pose proof (BankFacts.fdiv_pos_bounds _ _ M0 P1) as [D0 _].
  assert (T : 0 <= to <= from).
  { rewrite HT, HF. split; [apply fmul_nonneg; lia|]. apply fmul_mono_r; lia. }
  pose proof (paid_upper L (le_lop e) (le_aop e) (fee_factor_total (le_a e) (le_l e)) ltac:(lia) P2 P1 ltac:(lia)) as U1. rewrite <- HF in U1.
  destruct Ops as (lb1 & ab1 & w1 & w2 & w3 & w4 & hc1 & h' & E1 & E2 & E3 & E4 & WL & _).
  set (ab0 := set_totals (ls_abank s) (b_dep (ls_abank s)) (b_bor (ls_abank s)) (b_dust (ls_abank s)) (b_fees (ls_abank s) + (from - to))) in *.
  assert (OKl : index_ok (ls_lbank s)) by (split; assumption).
  destruct (ee_deposit _ _ _ _ _ _ _ OKl E1 L2) as (M1 & K1 & D1).
  assert (OKl1 : index_ok lb1) by (split; [rewrite (mv_di _ _ _ _ M1)|rewrite (mv_bi _ _ _ _ M1)]; assumption).
  assert (LF : 0 <= b_lof lb1) by (rewrite (mv_lof _ _ _ _ M1); exact F1).
  destruct (or_withdraw _ _ _ _ _ _ _ OKl1 LF E2) as (M2 & K2).
  assert (OKa : index_ok ab0) by (split; assumption).
  destruct (or_deposit _ _ _ _ _ _ _ OKa E3) as (M3 & K3).
  assert (OKa1 : index_ok ab1) by (split; [rewrite (mv_di _ _ _ _ M3)|rewrite (mv_bi _ _ _ _ M3)]; assumption).
  assert (LF1 : 0 <= b_lof ab1) by (rewrite (mv_lof _ _ _ _ M3); exact F2).
  destruct (ee_withdraw _ _ _ _ _ _ _ OKa1 LF1 E4) as (M4 & K4 & D4).
  assert (Q1 : native (ls_lbank s') (ls_ee_liab s') = native lb1 (ls_ee_liab s')) by (unfold native; rewrite (mv_di _ _ _ _ M2), (mv_bi _ _ _ _ M2); reflexivity).
  assert (Q2 : native ab1 (ls_ee_asset s) = native (ls_abank s) (ls_ee_asset s)) by (unfold native; rewrite (mv_di _ _ _ _ M3), (mv_bi _ _ _ _ M3); reflexivity).
  assert (Q3 : ix_round ab1 = ix_round (ls_abank s)) by (unfold ix_round; rewrite (mv_di _ _ _ _ M3), (mv_bi _ _ _ _ M3); reflexivity).
  rewrite Q2, Q3 in D4. rewrite <- Q1 in D1.
  destruct (two_moves _ _ _ _ _ _ _ _ _ M1 K1 M2 K2) as [T1 T2].
  destruct (two_moves _ _ _ _ _ _ _ _ _ M3 K3 M4 K4) as [T3 T4].
  assert (NN : native lb1 (ls_or_liab s) = native (ls_lbank s) (ls_or_liab s)) by (unfold native; rewrite (mv_di _ _ _ _ M1), (mv_bi _ _ _ _ M1); reflexivity).
  split; [exact L1|]. split; [exact L2|]. split; [exact L3|]. split; [exact T|]. split; [exact U1|]. split; [exact D1|]. split; [exact D4|].
  assert (X3 : to - fone - 2 < native (ls_abank s') (ls_or_asset s') - native (ls_abank s) (ls_or_asset s) /\ b_fees ab1 = b_fees ab0).
  { unfold deposit in E3. apply deposit_spec in E3; [|exact OKa]. destruct E3 as (_ & _ & Ef & _ & X1 & X2 & X3 & _). split; [|exact Ef].
    assert (D : b_dust ab1 - b_dust ab0 < fone). { destruct w3; [rewrite X1 by reflexivity; lia|]. destruct (X2 eq_refl) as (_ & _ & _ & Y1 & Y2 & _). lia. }
    pose proof (native_bounds (ls_abank s') (ls_or_asset s')) as [N1 N2]. rewrite (moved_pv _ _ _ _ _ M4), (moved_pv _ _ _ _ _ M3) in N1, N2.
    pose proof (native_bounds ab0 (ls_or_asset s)) as [N3 N4]. change (native ab0 (ls_or_asset s)) with (native (ls_abank s) (ls_or_asset s)) in N3, N4.
    set (d := b_dust ab1 - b_dust ab0) in *. clearbody d. clear - D X3 N1 N2 N3 N4 FP. nia. }
  destruct X3 as [X3 X4]. split; [exact X3|].
  assert (X5 : - L - fone - 2 < native (ls_lbank s') (ls_or_liab s') - native (ls_lbank s) (ls_or_liab s) /\ 0 <= t_ix (ls_or_liab s') /\ b_fees (ls_lbank s') = b_fees lb1).
  { unfold withdraw_with_fee in E2. apply withdraw_spec in E2; [|assumption..]. destruct E2 as (E0 & _ & _ & W0 & Wf & W1 & _ & Y1 & Y2 & Y3 & _ & Y4 & _).
    assert (w_fee w2 = 0) as WF. { rewrite W1. unfold to_borrow. rewrite NN. destruct (Z.ltb_spec 0 (L - Z.max (native (ls_lbank s) (ls_or_liab s)) 0)); [lia|]. apply andb_false_r || reflexivity. }
    split; [|split; [apply Y4; lia|lia]].
    assert (D : b_dust (ls_lbank s') - b_dust lb1 < fone). { destruct (w_active w2); [rewrite Y1 by reflexivity; lia|]. destruct (Y2 eq_refl) as (_ & _ & _ & Z1 & Z2 & _). lia. }
    pose proof (native_bounds (ls_lbank s') (ls_or_liab s')) as [N1 N2]. rewrite (moved_pv _ _ _ _ _ M2) in N1, N2.
    pose proof (native_bounds lb1 (ls_or_liab s)) as [N3 N4]. rewrite <- NN. rewrite WF in Y3.
    set (d := b_dust (ls_lbank s') - b_dust lb1) in *. clearbody d. clear - D Y3 N1 N2 N3 N4 FP. nia. }
  destruct X5 as (X5 & X6 & X7). split; [exact X5|]. split; [exact X6|].
  split.
  { assert (b_fees (ls_abank s') = b_fees ab1) as ->.
    { unfold withdraw_without_fee_with_dusting in E4. destruct (withdraw_internal _ _ _ false true _) as [[[b1 p1] r1]|] eqn:E; [|discriminate].
      apply some_inj in E4. apply pair_equal_spec in E4 as [E4 _]. apply pair_equal_spec in E4 as [<- _].
      apply withdraw_spec in E; [|assumption..]. destruct E as (_ & _ & _ & _ & E6 & E7 & _). rewrite E6, E7. cbn [andb]. lia. }
    rewrite X4. reflexivity. }
  split.
  { rewrite X7. unfold deposit_with_dusting in E1. destruct (deposit_internal _ _ _ true _) as [[[b1 p1] a1]|] eqn:E; [|discriminate].
    apply some_inj in E1. apply pair_equal_spec in E1 as [E1 _]. apply pair_equal_spec in E1 as [<- _].
    apply deposit_spec in E; [|exact OKl]. apply E. }
  split; [exact T1|]. split.
  - clear - T3. unfold bank_moved in *. unfold ab0 in T3. cbn [set_totals b_dep b_bor b_di b_bi b_fw] in T3. intuition lia.
  - split; [rewrite Z.add_opp_diag_r in T2; lia|].
    replace (two_claims (ls_abank s) (ls_ee_asset s) (ls_or_asset s)) with (two_claims ab0 (ls_or_asset s) (ls_ee_asset s) - (from - to) * fone).
    + replace (two_claims (ls_abank s') (ls_ee_asset s') (ls_or_asset s')) with (two_claims (ls_abank s') (ls_or_asset s') (ls_ee_asset s')) by (unfold two_claims; ring).
      change (b_di ab0) with (b_di (ls_abank s)) in T4. change (b_bi ab0) with (b_bi (ls_abank s)) in T4. clear - T4. lia.
    + unfold two_claims, claim, ab0. cbn [set_totals b_di b_bi b_dust b_fees]. ring.
Qed.

(** ** health *)
Lemma worth_drop awp lwp x d : 0 <= awp <= lwp -> Z.min d 0 * lwp <= worth awp lwp (x + d) - worth awp lwp x.
Proof.
  intros H. unfold worth. destruct (Z.le_gt_cases d 0).
  - rewrite Z.min_l by lia. destruct (Z.ltb_spec (x + d) 0), (Z.ltb_spec x 0); nia.
  - rewrite Z.min_r by lia. destruct (Z.ltb_spec (x + d) 0), (Z.ltb_spec x 0); nia.
Qed.
(** rounding errors of the liqee's health, times 2^96 *)
Definition force_slack (e : lenv) (s : lstate) (liab : fx) : Z :=
  liab + liab * le_lop e / fone + 1 + (ix_round (ls_lbank s) + 2) * liab_price_w e + (fone + 2) * asset_debt_w e + 2 * fone.
Lemma fc_health e s s' mx L to from h B il : lenv_ok e -> lstate_ok e s -> no_reserved (ls_cache s) -> fc_run e s s' mx L to from ->
  Health.health (ls_cache s) HLiqEnd = Some h -> balances (ls_cache s) HLiqEnd false = Some B ->
  token_pos (hc_tokens (ls_cache s)) (le_il e) = Some il -> L <= - nth il B 0 ->
  exists h', Health.health (ls_cache s') HLiqEnd = Some h' /\ h * fone - force_slack e s L <= h' * fone.
Proof.
  intros K O NR R Hh EB Pl XL. pose proof (fc_money _ _ _ _ _ _ _ K O R) as (L1 & _ & _ & T & U & D1 & D2 & _).
  destruct K as (Ka & Kl & P1 & P2). destruct O as (ND & SO & Sa & Sl & I1 & I2 & I3 & I4 & F1 & F2). destruct R as [NE _ HW _ _ _ _ _ _ Ops].
  destruct Ops as (lb1 & ab1 & w1 & w2 & w3 & w4 & hc1 & h' & _ & _ & _ & _ & _ & E5 & E6 & E7 & _). pose proof fone_pos as FP.
  exists h'. split; [exact E7|].
  destruct (shows_info _ _ _ _ _ _ ND Sa) as (ia & ta & Ia & Pa & Na & Wa1 & Wa2 & Wa3).
  destruct (shows_info _ _ _ _ _ _ ND Sl) as (il' & tl & Il & Pl' & Nl & Wl1 & Wl2 & Wl3). rewrite Pl in Pl'. apply some_inj in Pl'. subst il'.
  assert (NI : ia <> il).
  { intros ->. destruct (token_pos_lt _ _ _ Pa) as [_ (x & X1 & X2)]. destruct (token_pos_lt _ _ _ Pl) as [_ (y & Y1 & Y2)]. congruence. }
  pose proof (health_two _ _ _ _ _ _ _ _ _ _ _ _ _ _ _ _ NR Pa Na Pl Nl NI EB Hh E5 E6 E7) as HT.
  assert (WX1 : liab_wp tl HLiqEnd = liab_price_w e) by (unfold liab_wp, liab_price_w; cbn [liab_weight liab_price]; rewrite Wl2, Wl3; reflexivity).
  assert (WX2 : asset_wp ta HLiqEnd = asset_price_w e) by (unfold asset_wp, asset_price_w; cbn [asset_weight asset_price]; rewrite Wa1, Wa3; reflexivity).
  assert (WX3 : liab_wp ta HLiqEnd = asset_debt_w e) by (unfold liab_wp, asset_debt_w; cbn [liab_weight liab_price]; rewrite Wa2, Wa3; reflexivity).
  assert (WX4 : asset_wp tl HLiqEnd = fmul (lp_init_aw (le_l e)) (le_lop e)) by (unfold asset_wp; cbn [asset_weight asset_price]; rewrite Wl1, Wl3; reflexivity).
  assert (IRl : 0 <= ix_round (ls_lbank s)). { unfold ix_round. pose proof (Z.div_pos (Z.max (b_di (ls_lbank s)) (b_bi (ls_lbank s))) fone ltac:(lia) FP). lia. }
  pose proof Ka as (Ka1 & Ka2 & Ka3 & Ka4). pose proof Kl as (Kl1 & Kl2 & Kl3 & Kl4).
  assert (WY1 : 0 <= fmul (lp_init_aw (le_l e)) (le_lop e) <= liab_price_w e) by (split; [apply fmul_nonneg; lia|unfold liab_price_w; apply fmul_mono_l; lia]).
  assert (WY2 : 0 <= asset_price_w e <= asset_debt_w e) by (unfold asset_price_w, asset_debt_w; split; [apply fmul_nonneg; lia|apply fmul_mono_l; lia]).
  set (xl := nth il B 0) in *. set (xa := nth ia B 0) in *.
  set (dL := native (ls_lbank s') (ls_ee_liab s') - native (ls_lbank s) (ls_ee_liab s)) in *.
  set (dA := native (ls_abank s') (ls_ee_asset s') - native (ls_abank s) (ls_ee_asset s)) in *.
  pose proof (contribution_worth tl HLiqEnd (xl + dL)) as [A1 A2]. pose proof (contribution_worth tl HLiqEnd xl) as [A3 A4].
  pose proof (contribution_worth ta HLiqEnd (xa + dA)) as [A5 A6]. pose proof (contribution_worth ta HLiqEnd xa) as [A7 A8].
  rewrite WX1, WX4 in A1, A2, A3, A4. rewrite WX2, WX3 in A5, A6, A7, A8.
  pose proof (worth_ge_l (fmul (lp_init_aw (le_l e)) (le_lop e)) (liab_price_w e) (xl + dL) ltac:(lia)) as B2.
  pose proof (worth_le_l (fmul (lp_init_aw (le_l e)) (le_lop e)) (liab_price_w e) xl ltac:(lia)) as B5.
  pose proof (worth_drop (asset_price_w e) (asset_debt_w e) xa dA WY2) as B3.
  (* what is paid for the debt *)
  assert (PAY : from * asset_debt_w e <= L * liab_price_w e + (L + L * le_lop e / fone + 1)).
  { unfold asset_debt_w, liab_price_w in *. pose proof (fmul_bounds (lp_init_lw (le_a e)) (le_aop e)) as [G1 G2].
    pose proof (fmul_bounds (lp_init_lw (le_l e)) (le_lop e)) as [G3 G4].
    pose proof (fmul_bounds (lp_init_lw (le_a e)) (fee_factor_total (le_a e) (le_l e))) as [G5 G6].
    pose proof (fft_ge _ _ Ka Kl) as [FF1 FF2].
    pose proof (Z.div_mod (L * le_lop e) fone ltac:(lia)) as DM. pose proof (Z.mod_pos_bound (L * le_lop e) fone FP) as DB.
    set (lwa := lp_init_lw (le_a e)) in *. set (lwl := lp_init_lw (le_l e)) in *. set (aop := le_aop e) in *. set (lop := le_lop e) in *. set (ff := fee_factor_total (le_a e) (le_l e)) in *.
    set (wa := fmul lwa aop) in *. set (wl := fmul lwl lop) in *. set (wf := fmul lwa ff) in *. set (q := L * lop / fone) in *. set (r := (L * lop) mod fone) in *.
    assert (S1 : lwa * ff <= (lwl + 1) * fone). { assert (wf * fone <= lwl * fone) by (apply Z.mul_le_mono_nonneg_r; lia). lia. }
    clear - S1 G1 G3 G4 U P1 P2 Ka4 Kl4 L1 T FP DM DB. clearbody lwa lwl aop lop ff wa wl q r.
    assert (S2 : from * wa * fone <= from * (lwa * aop)) by nia.
    assert (S3 : from * (lwa * aop) * fone <= L * lop * ff * lwa) by nia.
    assert (S4 : L * lop * (ff * lwa) <= L * lop * ((lwl + 1) * fone)) by (apply Z.mul_le_mono_nonneg_l; nia).
    assert (S5 : from * (lwa * aop) <= L * lop * (lwl + 1)) by nia.
    assert (S6 : L * (lwl * lop) <= L * (wl * fone + fone)) by (apply Z.mul_le_mono_nonneg_l; lia).
    apply (Z.mul_le_mono_pos_r _ _ fone FP). lia. }
  set (c1 := contribution tl HLiqEnd (xl + dL)) in *. set (c2 := contribution tl HLiqEnd xl) in *.
  set (c3 := contribution ta HLiqEnd (xa + dA)) in *. set (c4 := contribution ta HLiqEnd xa) in *.
  unfold force_slack. set (al := liab_price_w e) in *. set (wd := asset_debt_w e) in *. set (rl := ix_round (ls_lbank s)) in *.
  set (w1' := worth _ al (xl + dL)) in *. set (w2' := worth _ al xl) in *. set (w3' := worth _ wd (xa + dA)) in *. set (w4' := worth _ wd xa) in *.
  set (q := L * le_lop e / fone) in *.
  assert (E : h' * fone = h * fone + (c1 - c2 + (c3 - c4)) * fone) by (rewrite <- HT; lia). rewrite E. clear E HT.
  clearbody c1 c2 c3 c4 al wd rl w1' w2' w3' w4' q dL dA xl xa.
  assert (M1 : Z.max 0 (xl + dL) * al <= rl * al) by (apply Z.mul_le_mono_nonneg_r; lia).
  assert (M3 : (L - 2) * al <= dL * al) by (apply Z.mul_le_mono_nonneg_r; lia).
  assert (M4 : (- from - fone - 2) * wd <= Z.min dA 0 * wd) by (apply Z.mul_le_mono_nonneg_r; lia).
  clear - A1 A2 A3 A4 A5 A6 A7 A8 B2 B5 B3 PAY M1 M3 M4 FP. lia.
Qed.
