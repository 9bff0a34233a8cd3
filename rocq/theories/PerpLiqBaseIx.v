(** Lemmas for PropPerpLiqBase: the instruction. *)
From Coq Require Import List ZArith Lia Bool Arith.
From Verif Require Import OrderTree Keys PerpTypes SettleLimit SettleFacts PerpMoney PerpMoneySpec PerpCancel PerpClaims PerpClaims2 PropPerpLiq Interest Bank Health HealthSpec HealthFacts HealthMore LiqState
  TokenLiq TokenLiqSpec TokenLiqFacts PerpLiqBase PerpLiqBaseSpec PerpLiqBaseFacts Fixed.
Import ListNotations.
Open Scope Z_scope.

Lemma record_settle_pos p l mk c x : exists y, fst (record_settle p l mk c x) = add_quote p (- x) y.
Proof. unfold record_settle. destruct (constrain_recurring _ _ _ _). cbn [fst]. eexists. reflexivity. Qed.
(** the trade leaves alone what health looks at besides base and quote *)
Lemma lb_more mk c pe le po lo price red tr lf pf pnlf now r :
  liq_base mk c pe le po lo price red tr lf pf pnlf now = Some r ->
  p_bids (lb_liqee r) = p_bids pe /\ p_asks (lb_liqee r) = p_asks pe /\ p_taker_base (lb_liqee r) = 0 /\ p_taker_quote (lb_liqee r) = 0 /\
  owed (lb_market r) (lb_liqee r) = 0 /\ mk_bls (lb_market r) = mk_bls mk /\ mk_index (lb_market r) = mk_index mk /\
  mk_qls (lb_market r) = mk_qls mk.
Proof.
  unfold liq_base. destruct (Z.eqb_spec (p_taker_base pe) 0) as [T1|]; [|discriminate]. destruct (Z.eqb_spec (p_taker_quote pe) 0) as [T2|]; [|discriminate]. cbn [andb negb].
  destruct (update_settle_limit le c now) as [l|]; [|discriminate]. cbv zeta.
  match goal with |- (if ?b then _ else _) = _ -> _ => destruct b; [discriminate|] end.
  set (base := if 0 <? p_base (settle_funding pe mk) then - red else red). clearbody base.
  set (qe := fmul _ _). set (qo := fmul _ _). clearbody qe qo.
  assert (G : forall p mk1, p_bids p = p_bids pe -> p_asks p = p_asks pe -> p_taker_base p = 0 -> p_taker_quote p = 0 ->
     p_long_settled p = mk_long_funding mk1 -> p_short_settled p = mk_short_funding mk1 -> mk_bls mk1 = mk_bls mk -> mk_index mk1 = mk_index mk -> mk_qls mk1 = mk_qls mk ->
     p_bids p = p_bids pe /\ p_asks p = p_asks pe /\ p_taker_base p = 0 /\ p_taker_quote p = 0 /\
     owed mk1 p = 0 /\ mk_bls mk1 = mk_bls mk /\ mk_index mk1 = mk_index mk /\ mk_qls mk1 = mk_qls mk).
  { intros p mk1 A1 A2 A3 A4 A5 A6 A7 A8 A9. assert (owed mk1 p = 0); [|tauto]. unfold owed. rewrite A5, A6, !Z.sub_diag. destruct (_ <? 0); lia. }
  destruct (base =? 0); unfold record_trade; cbv zeta;
    (destruct (0 <? tr); [destruct (takeover_limits _ _ _ _) as [x1 x2]; unfold record_liquidation_pnl_takeover; cbv zeta;
      match goal with |- context [record_settle ?p ?l ?m ?c ?x] => pose proof (record_settle_pos p l m c x) as [y Hy]; destruct (record_settle p l m c x) as [e1 l1] end; cbn [fst] in Hy; subst e1|]);
    intros H; apply some_inj in H; subst r; cbn [lb_liqee lb_market]; apply G; try reflexivity; assumption.
Qed.

(** the unweighted health unsettled pnl of a position without orders *)
Lemma uhupnl_flat p mk st aw lw mo io pr : p_bids p = 0 -> p_asks p = 0 -> p_taker_base p = 0 -> p_taker_quote p = 0 ->
  uhupnl (new_pinfo p mk st aw lw mo io pr) HLiqEnd =
  after_funding mk p + fmul (p_base p * mk_bls mk * (if p_base p * mk_bls mk <? 0 then lw else aw)) (pr_oracle pr).
Proof.
  intros B A T1 T2. unfold uhupnl, execution_case, new_pinfo, after_funding.
  cbn [pi_quote pi_base pi_bids pi_asks pi_lot pi_init_aw pi_init_lw pi_maint_aw pi_maint_lw pi_prices asset_price liab_price].
  rewrite B, A, T1, T2. change (- 0) with 0. rewrite !Z.add_0_r, ?Z.mul_0_l, owed_unsettled. rewrite ?fmul_0_l, !fmul_int_l.
  destruct (p_base p * mk_bls mk <? 0); cbn [asset_price liab_price]; lia.
Qed.

(** what the trade does to it, against what the steps expect *)
Lemma uhupnl_moved e s t price r red pnl per_lot max_base c le po lo now pr :
  bstate_ok e s t price -> pr_oracle pr = price -> 0 <= bp_plat (be_par e) ->
  p_bids (bs_ee s) = 0 -> p_asks (bs_ee s) = 0 ->
  uhupnl_per_lot (be_par e) (bs_mk s) price (p_base (bs_ee s)) max_base = Some per_lot ->
  liq_base (bs_mk s) c (bs_ee s) le po lo price red pnl (bp_fee (be_par e)) (bp_plat (be_par e)) (bp_pnl_fee (be_par e)) now = Some r ->
  let u p mk := uhupnl (new_pinfo p mk (be_settle e) (bp_init_aw (be_par e)) (bp_init_lw (be_par e)) (bp_maint_ov (be_par e)) (bp_init_ov (be_par e)) pr) HLiqEnd in
  exists d, u (lb_liqee r) (lb_market r) = u (bs_ee s) (bs_mk s) + per_lot * red - pnl + d /\ -1 <= d <= red.
Proof.
  intros [_ _ _ _ [Hp Hb] _] Hpr Hplat Hbid Hask HL Hr. cbv zeta.
  pose proof (C56_liq_base _ _ _ _ _ _ _ _ _ _ _ _ _ _ Hb Hp Hplat Hr) as (T1 & T2 & R & P & BE & _ & _ & _ & QE & QQ & _).
  pose proof (lb_more _ _ _ _ _ _ _ _ _ _ _ _ _ _ Hr) as (M1 & M2 & M3 & M4 & M5 & M6 & M7 & _).
  rewrite !uhupnl_flat by congruence. rewrite M6, Hpr. unfold after_funding at 1. rewrite M5, QQ, Z.sub_0_r.
  unfold uhupnl_per_lot in HL. destruct (guard _) as [|] eqn:G1 in HL; [|discriminate]. clear G1.
  destruct (guard (0 <? _)) as [|] eqn:G2 in HL; [|discriminate]. apply some_inj in HL. clear G2.
  rewrite fmul_int_l in HL. pose proof fone_pos as FP. set (lot := mk_bls (bs_mk s)) in *. set (b := p_base (bs_ee s)) in *.
  set (q0 := after_funding (bs_mk s) (bs_ee s)). rewrite QE, BE. clear QE QQ.
  destruct (Z.ltb_spec 0 b) as [Pb|Pb].
  - rewrite !Z.mul_1_l. set (aw := bp_init_aw (be_par e)) in *. set (f := fone - (bp_fee (be_par e) + bp_plat (be_par e))) in *.
    replace (- aw + (fone - bp_fee (be_par e) - bp_plat (be_par e))) with (f - aw) in HL by (unfold f; lia).
    assert (W1 : ((b - red) * lot <? 0) = false) by (apply Z.ltb_ge; nia). assert (W2 : (b * lot <? 0) = false) by (apply Z.ltb_ge; nia).
    rewrite W1, W2. pose proof (fmul_bounds ((b - red) * lot * aw) price) as B1. pose proof (fmul_bounds (b * lot * aw) price) as B2.
    pose proof (fmul_bounds (red * lot * price) f) as B3. pose proof (fmul_bounds (lot * price) (f - aw)) as B4. rewrite HL in B4.
    set (y1 := fmul ((b - red) * lot * aw) price) in *. set (y2 := fmul (b * lot * aw) price) in *. set (y3 := fmul (red * lot * price) f) in *.
    exists (y3 + y1 - y2 - per_lot * red). split; [lia|].
    assert (B5 : lot * price * (f - aw) * red - fone * red <= per_lot * red * fone <= lot * price * (f - aw) * red) by nia.
    assert (E1 : (b - red) * lot * aw * price = b * lot * aw * price - red * lot * price * aw) by ring.
    assert (E2 : lot * price * (f - aw) * red = red * lot * price * f - red * lot * price * aw) by ring.
    rewrite E1 in B1. rewrite E2 in B5. set (z := y3 + y1 - y2 - per_lot * red). assert (Hz : z * fone = y3 * fone + y1 * fone - y2 * fone - per_lot * red * fone) by (unfold z; ring).
    clearbody z. clear - B1 B2 B3 B5 Hz FP R. assert (- 2 * fone < z * fone < (1 + red) * fone) by lia. split; nia.
  - set (lw := bp_init_lw (be_par e)) in *. set (f := fone + bp_fee (be_par e) + bp_plat (be_par e)) in *.
    replace (fone - -1 * (bp_fee (be_par e) + bp_plat (be_par e))) with f by (unfold f; lia).
    assert (Rb : red <= - b) by lia.
    assert (W1 : forall x aw, x <= 0 -> fmul (x * lot * (if x * lot <? 0 then lw else aw)) price = fmul (x * lot * lw) price).
    { intros x aw X. destruct (Z.ltb_spec (x * lot) 0); [reflexivity|]. assert (x * lot = 0) by nia. rewrite H0. reflexivity. }
    rewrite !W1 by lia. replace (b - -1 * red) with (b + red) by lia.
    pose proof (fmul_bounds ((b + red) * lot * lw) price) as B1. pose proof (fmul_bounds (b * lot * lw) price) as B2.
    pose proof (fmul_bounds (-1 * (red * lot * price)) f) as B3. pose proof (fmul_bounds (lot * price) (lw - f)) as B4. rewrite HL in B4.
    set (y1 := fmul ((b + red) * lot * lw) price) in *. set (y2 := fmul (b * lot * lw) price) in *. set (y3 := fmul (-1 * (red * lot * price)) f) in *.
    exists (y3 + y1 - y2 - per_lot * red). split; [lia|].
    assert (B5 : lot * price * (lw - f) * red - fone * red <= per_lot * red * fone <= lot * price * (lw - f) * red) by nia.
    assert (E1 : (b + red) * lot * lw * price = b * lot * lw * price + red * lot * price * lw) by ring.
    assert (E2 : lot * price * (lw - f) * red = red * lot * price * lw - red * lot * price * f) by ring.
    assert (E3 : -1 * (red * lot * price) * f = - (red * lot * price * f)) by ring.
    rewrite E1 in B1. rewrite E2 in B5. rewrite E3 in B3. set (z := y3 + y1 - y2 - per_lot * red). assert (Hz : z * fone = y3 * fone + y1 * fone - y2 * fone - per_lot * red * fone) by (unfold z; ring).
    clearbody z. clear - B1 B2 B3 B5 Hz FP R. assert (- 2 * fone < z * fone < (1 + red) * fone) by lia. split; nia.
Qed.

(** ** the balances and the health after the perp position changed *)
Lemma add_at_comm L : forall i j x y, add_at (add_at L i x) j y = add_at (add_at L j y) i x.
Proof. induction L as [|z L IH]; intros [|i] [|j] x y; cbn [add_at]; try reflexivity; f_equal; [lia|apply IH]. Qed.
Lemma add_at_twice L : forall i x y, add_at (add_at L i x) i y = add_at L i (x + y).
Proof. induction L as [|z L IH]; intros [|i] x y; cbn [add_at]; try reflexivity; f_equal; [lia|apply IH]. Qed.
Lemma perp_balances_shift toks ty P k d : forall acc,
  perp_balances toks ty false P (add_at acc k d) = option_map (fun B => add_at B k d) (perp_balances toks ty false P acc).
Proof.
  induction P as [|pi P IH]; intros acc; cbn [perp_balances]; [reflexivity|]. destruct (token_pos _ _); [|reflexivity]. cbn [negb orb].
  rewrite add_at_comm, IH. reflexivity.
Qed.
Lemma perp_balances_one toks ty f k pi : forall P i acc, nth_error P i = Some pi -> pi_settle (f pi) = pi_settle pi -> token_pos toks (pi_settle pi) = Some k ->
  perp_balances toks ty false (update_nth P i f) acc = option_map (fun B => add_at B k (hupnl (f pi) ty - hupnl pi ty)) (perp_balances toks ty false P acc).
Proof.
  induction P as [|qi P IH]; intros [|i] acc Hn Hs Hk; try discriminate; cbn [nth_error] in Hn; cbn [update_nth perp_balances].
  - apply some_inj in Hn. subst qi. rewrite Hs, Hk. cbn [negb orb]. rewrite <- perp_balances_shift, add_at_twice. do 2 f_equal. lia.
  - destruct (token_pos toks (pi_settle qi)); [|reflexivity]. apply IH; assumption.
Qed.
Lemma zadd_add_at_l A : forall B i x, length A = length B -> zadd (add_at A i x) B = add_at (zadd A B) i x.
Proof.
  unfold zadd. induction A as [|a A IH]; intros [|b B] [|i] x H; cbn [combine add_at map fst snd]; try reflexivity; try discriminate; f_equal; [lia|].
  apply IH. cbn in H; lia.
Qed.
Lemma recompute_spec hc p mk st par hc' B ip pi k : recompute_perp hc p mk st par = Some hc' -> balances hc HLiqEnd false = Some B ->
  perp_pos (hc_perps hc) (mk_index mk) = Some ip -> nth_error (hc_perps hc) ip = Some pi -> pi_settle pi = st -> token_pos (hc_tokens hc) st = Some k ->
  let new := new_pinfo p mk st (bp_init_aw par) (bp_init_lw par) (bp_maint_ov par) (bp_init_ov par) (pi_prices pi) in
  balances hc' HLiqEnd false = Some (add_at B k (hupnl new HLiqEnd - hupnl pi HLiqEnd)) /\ hc_tokens hc' = hc_tokens hc /\ hc_serum hc' = hc_serum hc.
Proof.
  intros H HB Hp Hn Hs Hk. cbv zeta. unfold recompute_perp in H. rewrite Hp in H. apply some_inj in H. subst hc'. cbn [hc_tokens hc_serum hc_perps].
  split; [|auto]. unfold balances in *. cbn [hc_tokens hc_serum hc_perps].
  rewrite (perp_balances_one _ _ _ k pi) by (cbn [new_pinfo pi_settle]; congruence).
  destruct (perp_balances (hc_tokens hc) HLiqEnd false (hc_perps hc) _) as [L|] eqn:EP; [|discriminate]. cbn [option_map]. apply some_inj in HB. subst B.
  f_equal. apply zadd_add_at_l. apply perp_balances_spec in EP as (HL & _); [|apply zeros_length]. rewrite map_length. exact HL.
Qed.
Lemma no_orders pi p mk st aw lw mo io pr : pi = new_pinfo p mk st aw lw mo io pr -> pi_orders pi = false -> p_bids p = 0 /\ p_asks p = 0.
Proof. intros ->. cbn [new_pinfo pi_orders]. intros H. apply orb_false_iff in H as [H1 H2]. apply negb_false_iff, Z.eqb_eq in H1, H2. auto. Qed.
Lemma hupnl_weigh pi ty : hupnl pi ty = weigh (overall_weight pi ty) (uhupnl pi ty).
Proof. reflexivity. Qed.

Lemma uhupnl_pos_health par p mk st pr : 0 <= mk_bls mk -> p_bids p = 0 -> p_asks p = 0 -> p_taker_base p = 0 -> p_taker_quote p = 0 ->
  uhupnl (new_pinfo p mk st (bp_init_aw par) (bp_init_lw par) (bp_maint_ov par) (bp_init_ov par) pr) HLiqEnd = pos_health par mk p (pr_oracle pr).
Proof.
  intros Hb H1 H2 H3 H4. rewrite uhupnl_flat by assumption. unfold pos_health. do 2 f_equal.
  destruct (Z.ltb_spec (p_base p * mk_bls mk) 0), (Z.ltb_spec (p_base p) 0); try reflexivity; [nia|].
  assert (p_base p * mk_bls mk = 0) by nia. rewrite H5. reflexivity.
Qed.

(** the course of a liquidation: gain per lot, settle token balance and perp health before, the
    projected end, rounding *)
Record ran (e : benv) (s s' : bstate) (t : tinfo) (price h : fx) (max_base max_pnl : Z) (r : liqbase) (pnl h' : fx)
  (L s0 u0 : fx) (y : track) (d : Z) : Prop := mkRan {
  rn_L : uhupnl_per_lot (be_par e) (bs_mk s) price (p_base (bs_ee s)) max_base = Some L;
  rn_five : five_steps t (p_base (bs_ee s)) max_base (of_int max_pnl) L (fone - bp_pnl_fee (be_par e)) (bp_init_ov (be_par e))
              (mkTk 0 0 u0 h s0) = Some y;
  rn_base : liq_base (bs_mk s) (be_cfg e) (bs_ee s) (be_le e) (bs_or s) (be_lo e) price (tk_red y) pnl
              (bp_fee (be_par e)) (bp_plat (be_par e)) (bp_pnl_fee (be_par e)) (be_now e) = Some r;
  rn_pnl : tk_pnl y = pnl;
  rn_end : bs_ee s' = lb_liqee r /\ bs_mk s' = lb_market r /\ bs_or s' = lb_liqor r;
  rn_d : -1 <= d <= tk_red y;
  rn_u0 : u0 = pos_health (be_par e) (bs_mk s) (bs_ee s) price;
  rn_u : pos_health (be_par e) (bs_mk s') (bs_ee s') price = u0 + L * tk_red y - pnl + d;
  rn_h : h' = h - contribution t HLiqEnd s0 + contribution t HLiqEnd (s0 +
     (weigh (bp_init_ov (be_par e)) (u0 + L * tk_red y - pnl + d) - weigh (bp_init_ov (be_par e)) u0 + fmul pnl (fone - bp_pnl_fee (be_par e)))) }.
Lemma action_ran e s s' t price h max_base max_pnl r pnl h' : bstate_ok e s t price -> 0 <= bp_plat (be_par e) ->
  after_phase1 (bs_cache s) = true -> Health.health (bs_cache s) HLiqEnd = Some h ->
  liq_action e s h max_base max_pnl = Some (s', r, pnl) -> Health.health (bs_cache s') HLiqEnd = Some h' ->
  exists L s0 u0 y d, ran e s s' t price h max_base max_pnl r pnl h' L s0 u0 y d.
Proof.
  intros Hok Hplat Ha Hh H Hh'. pose proof Hok as [O1 [k Ok] _ (ip & pr & Op1 & Op2 & Op3) [P1 P2] _].
  pose proof (phase1_no_reserved _ O1 Ha) as NR. unfold liq_action in H.
  destruct (balances (bs_cache s) HLiqEnd false) as [B|] eqn:EB; [|discriminate]. rewrite Ok, Op1, Op3 in H.
  unfold nth_info in Ok. destruct (token_pos (hc_tokens (bs_cache s)) (be_settle e)) as [k'|] eqn:Ek; [|discriminate].
  destruct (nth_error (hc_tokens (bs_cache s)) k') as [t'|] eqn:Et; [|discriminate]. apply some_inj in Ok. apply pair_equal_spec in Ok as [<- <-].
  cbn [new_pinfo pi_prices] in H. rewrite Op2 in H. set (pi := new_pinfo _ _ _ _ _ _ _ _) in *.
  destruct (uhupnl_per_lot _ _ _ _ _) as [L|] eqn:EL; [|discriminate].
  destruct (five_steps _ _ _ _ _ _ _ _) as [y|] eqn:E5; [|discriminate].
  destruct (liq_base _ _ _ _ _ _ _ _ _ _ _ _ _) as [r1|] eqn:Er; [|discriminate].
  match type of H with match ?m with _ => _ end = _ => destruct m as [[[[bk et] ot] hc]|] eqn:Em; [|discriminate] end.
  destruct (recompute_perp _ _ _ _ _) as [hc2|] eqn:Ec; [|discriminate]. apply some_inj in H.
  apply pair_equal_spec in H as [H Hp]. apply pair_equal_spec in H as [Hs Hr]. subst r1. subst s'. cbn [bs_cache] in Hh'.
  (* no orders *)
  assert (NO : p_bids (bs_ee s) = 0 /\ p_asks (bs_ee s) = 0).
  { eapply no_orders; [reflexivity|]. unfold after_phase1 in Ha. apply andb_prop in Ha as [_ Ha]. apply negb_true_iff in Ha.
    destruct (pi_orders pi) eqn:Q; [|exact Q]. assert (existsb pi_orders (hc_perps (bs_cache s)) = true); [|congruence].
    apply existsb_exists. exists pi. split; [eapply nth_error_In; exact Op3|exact Q]. }
  destruct NO as [NO1 NO2].
  pose proof (C56_liq_base _ _ _ _ _ _ _ _ _ _ _ _ _ _ P2 P1 Hplat Er) as (T1 & T2 & TR & TP & _ & _ & _ & _ & _ & _ & _ & _ & _ & _ & TK & _).
  pose proof (lb_more _ _ _ _ _ _ _ _ _ _ _ _ _ _ Er) as (M1 & M2 & M3 & M4 & M5 & M6 & M7 & _).
  destruct (uhupnl_moved e s t' price r (tk_red y) (tk_pnl y) L max_base _ _ _ _ _ pr Hok Op2 Hplat NO1 NO2 EL Er) as (d & Hd & Dd).
  cbv zeta in Hd. fold pi in Hd.
  (* the cache *)
  assert (A : balances hc HLiqEnd false = Some (add_at B k' (lb_token r)) /\ (forall X, token_contributions (hc_tokens hc) HLiqEnd X = token_contributions (hc_tokens (bs_cache s)) HLiqEnd X) /\
     hc_serum hc = hc_serum (bs_cache s) /\ hc_perps hc = hc_perps (bs_cache s) /\ (forall q, token_pos (hc_tokens hc) q = token_pos (hc_tokens (bs_cache s)) q)).
  { destruct (Z.ltb_spec 0 (tk_pnl y)) as [Q|Q].
    - destruct (deposit _ _ _ _) as [[[b1 e1] a1]|]; [|discriminate]. destruct (withdraw_without_fee _ _ _ _) as [[[b2 o1] a2]|]; [|discriminate].
      destruct (adjust_token_balance _ _ _ _) as [hc1|] eqn:Ea; [|discriminate]. apply some_inj in Em. apply pair_equal_spec in Em as [_ <-].
      destruct (adjust_spec _ _ _ _ _ _ Ea EB) as (i & Pi & F1 & F2 & F3 & F4 & F5). rewrite Ek in Pi. apply some_inj in Pi. subst i. auto.
    - apply some_inj in Em. apply pair_equal_spec in Em as [_ <-]. assert (Q0 : tk_pnl y = 0) by lia. rewrite TK, Q0, fmul_0_l.
      split; [|auto]. rewrite EB. f_equal. clear. revert k'. induction B as [|b B IH]; intros [|k]; cbn [add_at]; try reflexivity; f_equal; [lia|apply IH]. }
  destruct A as (A1 & A2 & A3 & A4 & A5).
  destruct (recompute_spec _ _ _ _ _ _ _ ip pi k' Ec A1) as (R1 & R2 & R3); [rewrite A4, M7; exact Op1|rewrite A4; exact Op3|reflexivity|rewrite A5; exact Ek|].
  cbn [pi new_pinfo pi_prices] in R1.
  assert (NR2 : no_reserved hc2) by (unfold no_reserved; rewrite R3, A3; exact NR).
  destruct (health_no_reserved _ _ _ NR Hh) as (B0 & E0 & H0). rewrite EB in E0. apply some_inj in E0. subst B0.
  destruct (health_no_reserved _ _ _ NR2 Hh') as (B2 & E2 & H2). rewrite R1 in E2. apply some_inj in E2. subst B2.
  pose proof (balances_spec _ _ _ _ EB) as (LB & _). destruct (token_pos_lt _ _ _ Ek) as [Lk _].
  rewrite R2, A2, add_at_twice in H2. rewrite (contributions_add_at _ _ _ _ _ _ Et) in H2 by lia.
  exists L, (nth k' B 0), (pos_health (be_par e) (bs_mk s) (bs_ee s) price), y, d.
  assert (U0 : uhupnl pi HLiqEnd = pos_health (be_par e) (bs_mk s) (bs_ee s) price) by (unfold pi; rewrite uhupnl_pos_health by assumption; rewrite Op2; reflexivity).
  constructor; cbn [bs_ee bs_mk bs_or]; try assumption; try reflexivity.
  - rewrite <- U0. exact E5.
  - rewrite <- Hp. exact Er.
  - auto.
  - rewrite <- U0, <- Hp, <- Hd. rewrite uhupnl_pos_health by (congruence || (rewrite M6; exact P2)). rewrite Op2. reflexivity.
  - rewrite H2, <- H0. unfold pi in H2. rewrite <- U0, <- Hp, <- Hd, TK. rewrite !hupnl_weigh.
    change (overall_weight pi HLiqEnd) with (bp_init_ov (be_par e)).
    match goal with |- context [overall_weight (new_pinfo ?a ?b ?c ?d ?f ?g ?h ?i) HLiqEnd] => change (overall_weight (new_pinfo a b c d f g h i) HLiqEnd) with (bp_init_ov (be_par e)) end.
    set (w1 := weigh _ _). set (w2 := weigh _ _). set (tk := fmul _ _). replace (tk + (w1 - w2)) with (w1 - w2 + tk) by lia. lia.
Qed.
