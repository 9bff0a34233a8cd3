(** C79: what a liquidation of a perp base position or of positive perp pnl may move and under
    which conditions; C80: it takes no more than one lot too much; C81: it takes enough.
    Public statements. *)
From Coq Require Import List ZArith Lia Bool Arith.
From Verif Require Import OrderTree Keys PerpTypes SettleLimit SettleFacts PerpMoney PerpMoneySpec PerpCancel PerpClaims PerpClaims2 PropPerpLiq Interest Bank BankFacts BankInv Health HealthSpec HealthFacts HealthMore
  LiqState TokenLiq TokenLiqSpec TokenLiqFacts PropTokenLiq PerpLiqBase PerpLiqBaseSpec PerpLiqBaseFacts PerpLiqBaseIx Fixed.
Import ListNotations.
Open Scope Z_scope.

Definition flagged (s : bstate) (f : bool) : bstate :=
  mkBS (bs_cache s) f (bs_mk s) (bs_ee s) (bs_or s) (bs_bank s) (bs_ee_tok s) (bs_or_tok s).
Lemma flagged_ok e s f t price : bstate_ok e s t price -> bstate_ok e (flagged s f) t price.
Proof. intros []. constructor; assumption. Qed.
Lemma base_inv e s sg lf rg mb mp hl s' r pnl : perp_liq_base e s sg lf rg mb mp hl = Some (s', Some (r, pnl)) ->
  exists h m s1 h', sg = true /\ lf = false /\ Health.health (bs_cache s) HLiqEnd = Some h /\ after_phase1 (bs_cache s) = true /\
    Health.health (bs_cache s) HMaint = Some m /\ check_liquidatable (bs_flag s) m h = (Liquidatable, true) /\
    liq_action e (flagged s true) h (Z.max mb (i64_min + 1)) mp = Some (s1, r, pnl) /\
    Health.health (bs_cache s1) HLiqEnd = Some h' /\ s' = flagged s1 (recover (bs_flag s1) h') /\ h <= h' /\ (rg = true \/ 0 <= hl s').
Proof.
  unfold perp_liq_base. cbv zeta. destruct sg; cbn [guard]; [|discriminate]. destruct lf; cbn [guard negb]; [discriminate|].
  destruct (Health.health (bs_cache s) HLiqEnd) as [h|]; [|discriminate]. destruct (after_phase1 _); cbn [guard]; [|discriminate].
  destruct (Health.health (bs_cache s) HMaint) as [m|]; [|discriminate].
  destruct (check_liquidatable (bs_flag s) m h) as [[] f] eqn:CL; try discriminate.
  assert (f = true) as ->. { unfold check_liquidatable in CL. destruct (bs_flag s); [destruct (recover true h)|destruct (0 <=? m)]; congruence. }
  destruct (liq_action _ _ _ _ _) as [[[s1 r1] p1]|] eqn:E; [|discriminate].
  destruct (Health.health (bs_cache s1) HLiqEnd) as [h'|] eqn:E'; [|discriminate].
  destruct (Z.leb_spec h h') as [Q|]; cbn [guard]; [|discriminate]. destruct (rg || (0 <=? _)) eqn:G; cbn [guard]; [|discriminate].
  intros H. apply some_inj in H. apply pair_equal_spec in H as [H1 H2]. apply some_inj in H2. apply pair_equal_spec in H2 as [-> ->].
  exists h, m, s1, h'. do 6 (split; [first [assumption|reflexivity]|]). split; [exact E|]. split; [exact E'|]. split; [subst s'; reflexivity|]. split; [exact Q|].
  apply orb_prop in G as [G|G]; [left; exact G|right; apply Z.leb_le in G; subst s'; exact G].
Qed.
Lemma base_flag_only s f : bs_cache (flagged s f) = bs_cache s /\ bs_ee (flagged s f) = bs_ee s /\ bs_or (flagged s f) = bs_or s /\ bs_mk (flagged s f) = bs_mk s /\
  bs_bank (flagged s f) = bs_bank s /\ bs_ee_tok (flagged s f) = bs_ee_tok s /\ bs_or_tok (flagged s f) = bs_or_tok s.
Proof. repeat apply conj; reflexivity. Qed.

(** the whole course *)
Record went (e : benv) (s s' : bstate) (t : tinfo) (price h h' : fx) (max_base max_pnl red : Z) (r : liqbase) (pnl L : fx)
  (s0 u0 : fx) (y : track) (d : Z) : Prop := mkWent {
  wn_run : ran e s s' t price h (Z.max max_base (i64_min + 1)) max_pnl r pnl h' L s0 u0 y d;
  wn_L : L = lot_gain (be_par e) (mk_bls (bs_mk s)) price (p_base (bs_ee s)) /\ 0 < L;
  wn_lw : liab_wp t HLiqEnd = settle_price t;
  wn_w : 0 <= asset_wp t HLiqEnd <= liab_wp t HLiqEnd;
  wn_sign : if 0 <? p_base (bs_ee s) then 0 <= max_base else max_base <= 0;
  wn_room : Z.min (Z.abs (p_base (bs_ee s))) (Z.abs (Z.max max_base (i64_min + 1))) = Z.min (Z.abs (p_base (bs_ee s))) (Z.abs max_base);
  wn_red : red = tk_red y /\ red = Z.abs (p_base (bs_ee s)) - Z.abs (p_base (bs_ee s'));
  wn_h : h <= h';
  wn_course : exists x1 x2 x3 x4, course t (p_base (bs_ee s)) (Z.max max_base (i64_min + 1)) (of_int max_pnl) L (fone - bp_pnl_fee (be_par e)) (bp_init_ov (be_par e))
     (mkTk 0 0 u0 h s0) x1 x2 x3 x4 y }.
Lemma base_went e s sg lf rg mb mp hl s' r pnl t price h : bpar_ok (be_par e) -> bstate_ok e s t price -> - 2 ^ 63 <= mb -> 0 <= mp ->
  Health.health (bs_cache s) HLiqEnd = Some h ->
  perp_liq_base e s sg lf rg mb mp hl = Some (s', Some (r, pnl)) ->
  exists h' red L s0 u0 y d, Health.health (bs_cache s') HLiqEnd = Some h' /\ went e s s' t price h h' mb mp red r pnl L s0 u0 y d.
Proof.
  intros P O M1 M2 Hh H. apply base_inv in H as (h1 & m & s1 & h' & _ & _ & Hh1 & AP & Hm & CL & HA & Hh' & Es & LE & _).
  assert (h1 = h) as -> by congruence. pose proof (flagged_ok e s true t price O) as O'.
  destruct P as (P1 & P2 & P3 & P4 & P5 & P6 & P7).
  pose proof O as [O1 O2 [O3 O3'] O4 [O5 O5'] O6].
  destruct (action_ran e (flagged s true) s1 t price h (Z.max mb (i64_min + 1)) mp r pnl h' O' P5 AP Hh HA Hh') as (L & s0 & u0 & y & d & R).
  exists h', (tk_red y), L, s0, u0, y, d. split; [subst s'; exact Hh'|].
  assert (R' : ran e s s' t price h (Z.max mb (i64_min + 1)) mp r pnl h' L s0 u0 y d).
  { subst s'. destruct R. constructor; assumption. }
  clear R. pose proof fone_pos as FP.
  assert (W : 0 <= asset_wp t HLiqEnd <= liab_wp t HLiqEnd).
  { unfold asset_wp, liab_wp. cbn [asset_weight liab_weight asset_price liab_price]. split; [apply fmul_nonneg; lia|]. apply fmul_mono_l; lia. }
  pose proof (rn_L _ _ _ _ _ _ _ _ _ _ _ _ _ _ _ _ R') as HL. unfold uhupnl_per_lot in HL.
  match type of HL with match guard ?b with _ => _ end = _ => destruct (guard b) as [[]|] eqn:G1 in HL; [|discriminate] end. apply guard_some in G1. destruct (guard (0 <? _)) as [[]|] eqn:G2 in HL; [|discriminate]. apply guard_some in G2.
  apply some_inj in HL. rewrite HL in G2. apply Z.ltb_lt in G2. rewrite fmul_int_l in HL.
  assert (EL : L = lot_gain (be_par e) (mk_bls (bs_mk s)) price (p_base (bs_ee s))).
  { rewrite <- HL. unfold lot_gain, fmul. destruct (0 <? p_base (bs_ee s)); f_equal; ring. }
  assert (i64E : i64_min = - 2 ^ 63) by reflexivity. rewrite i64E in G1.
  assert (SG : if 0 <? p_base (bs_ee s) then 0 <= mb else mb <= 0).
  { destruct (0 <? p_base (bs_ee s)); apply Z.leb_le in G1; lia. }
  assert (RM : Z.min (Z.abs (p_base (bs_ee s))) (Z.abs (Z.max mb (i64_min + 1))) = Z.min (Z.abs (p_base (bs_ee s))) (Z.abs mb)).
  { rewrite i64E. destruct (0 <? p_base (bs_ee s)); lia. }
  assert (RD : tk_red y = Z.abs (p_base (bs_ee s)) - Z.abs (p_base (bs_ee s'))).
  { pose proof (rn_base _ _ _ _ _ _ _ _ _ _ _ _ _ _ _ _ R') as B. apply C56_liq_base in B as (_ & _ & _ & _ & _ & B & _); [|assumption..].
    destruct (rn_end _ _ _ _ _ _ _ _ _ _ _ _ _ _ _ _ R') as (E1 & _). rewrite E1, B. lia. }
  constructor; try assumption.
  - auto.
  - reflexivity.
  - auto.
  - eapply five_course; [exact W|exact G2|lia|exact P1| |exact (rn_five _ _ _ _ _ _ _ _ _ _ _ _ _ _ _ _ R')].
    unfold inv, room. cbn [tk_red tk_pnl]. assert (0 <= of_int mp) by (unfold of_int; nia). lia.
Qed.

(** ** C79 *)
(** When a liquidation may happen; the health of the liqee does not get worse, and its mark is removed exactly when it
    ends above minus one unit. *)
Theorem C79_conditions e s signed liqor_flag region max_base max_pnl liqor_init s' r pnl :
  perp_liq_base e s signed liqor_flag region max_base max_pnl liqor_init = Some (s', Some (r, pnl)) ->
  signed = true /\ liqor_flag = false /\ has_phase1 (bs_cache s) = false /\
  (exists m h h', Health.health (bs_cache s) HMaint = Some m /\ Health.health (bs_cache s) HLiqEnd = Some h /\ Health.health (bs_cache s') HLiqEnd = Some h' /\
     (bs_flag s = false /\ m < 0 \/ bs_flag s = true /\ h <= - fone) /\ h <= h' /\ (bs_flag s' = true <-> h' <= - fone)) /\
  (region = true \/ 0 <= liqor_init s').
Proof.
  intros H. apply base_inv in H as (h & m & s1 & h' & SG & LF & Hh & AP & Hm & CL & HA & Hh' & Es & LE & HR).
  split; [exact SG|]. split; [exact LF|].
  split. { unfold after_phase1 in AP. unfold has_phase1. apply andb_prop in AP as [A1 A2]. apply negb_true_iff in A1, A2. rewrite A1, A2. reflexivity. }
  split; [|exact HR]. exists m, h, h'. split; [exact Hm|]. split; [exact Hh|]. split; [subst s'; exact Hh'|].
  split. { unfold check_liquidatable in CL. destruct (bs_flag s).
    - right. split; [reflexivity|]. unfold recover in CL. cbn [andb] in CL. destruct (Z.ltb_spec (- fone) h); [discriminate|lia].
    - left. split; [reflexivity|]. destruct (Z.leb_spec 0 m); [discriminate|lia]. }
  split; [exact LE|]. assert (F : bs_flag s1 = true).
  { unfold liq_action in HA. cbv zeta in HA. destruct (balances _ _ _); [|discriminate]. destruct (nth_info _ _) as [[i t]|]; [|discriminate].
    destruct (perp_pos _ _) as [ip|]; [|discriminate]. destruct (nth_error _ ip) as [pi|]; [|discriminate]. destruct (uhupnl_per_lot _ _ _ _ _); [|discriminate].
    destruct (five_steps _ _ _ _ _ _ _ _) as [y|]; [|discriminate]. destruct (liq_base _ _ _ _ _ _ _ _ _ _ _ _ _); [|discriminate].
    match type of HA with match ?m with _ => _ end = _ => destruct m as [[[[bk et] ot] hc]|]; [|discriminate] end.
    destruct (recompute_perp _ _ _ _ _); [|discriminate]. apply some_inj in HA. apply pair_equal_spec in HA as [HA _]. apply pair_equal_spec in HA as [<- _]. reflexivity. }
  subst s'. cbn [flagged bs_flag]. rewrite F. unfold recover. cbn [andb]. destruct (Z.ltb_spec (- fone) h'); cbn [negb]; split; intros; try lia; try discriminate; reflexivity.
Qed.
Print Assumptions C79_conditions.

(** An account that is not liquidatable keeps everything; only its mark can be removed, by being above minus one unit. *)
Theorem C79_nothing e s signed liqor_flag region max_base max_pnl liqor_init s' :
  perp_liq_base e s signed liqor_flag region max_base max_pnl liqor_init = Some (s', None) ->
  s' = mkBS (bs_cache s) false (bs_mk s) (bs_ee s) (bs_or s) (bs_bank s) (bs_ee_tok s) (bs_or_tok s) /\
  exists m h, Health.health (bs_cache s) HMaint = Some m /\ Health.health (bs_cache s) HLiqEnd = Some h /\
     (bs_flag s = false /\ 0 <= m \/ bs_flag s = true /\ - fone < h).
Proof.
  unfold perp_liq_base. cbv zeta. destruct signed; cbn [guard]; [|discriminate]. destruct liqor_flag; cbn [guard negb]; [discriminate|].
  destruct (Health.health (bs_cache s) HLiqEnd) as [h|]; [|discriminate]. destruct (after_phase1 _); cbn [guard]; [|discriminate].
  destruct (Health.health (bs_cache s) HMaint) as [m|]; [|discriminate].
  destruct (check_liquidatable (bs_flag s) m h) as [l f] eqn:CL. intros H.
  assert (X : l <> Liquidatable /\ f = false /\ (bs_flag s = false /\ 0 <= m \/ bs_flag s = true /\ - fone < h) /\ s' = flagged s f).
  { destruct l.
    - apply some_inj in H. apply pair_equal_spec in H as [<- _]. split; [discriminate|]. unfold check_liquidatable in CL. destruct (bs_flag s).
      + destruct (recover true h); discriminate.
      + destruct (Z.leb_spec 0 m); [|discriminate]. apply pair_equal_spec in CL as [_ <-]. split; [reflexivity|]. split; [left; auto|reflexivity].
    - exfalso. destruct (liq_action _ _ _ _ _) as [[[s1 r1] p1]|] in H; [|discriminate]. destruct (Health.health (bs_cache s1) HLiqEnd); [|discriminate].
      destruct (guard _) in H; [|discriminate]. destruct (guard _) in H; discriminate.
    - apply some_inj in H. apply pair_equal_spec in H as [<- _]. split; [discriminate|]. unfold check_liquidatable in CL. destruct (bs_flag s).
      + unfold recover in CL. cbn [andb] in CL. destruct (Z.ltb_spec (- fone) h); cbn [negb] in CL; [|discriminate]. apply pair_equal_spec in CL as [_ <-]. split; [reflexivity|]. split; [right; auto|reflexivity].
      + destruct (0 <=? m); discriminate. }
  destruct X as (_ & -> & X & ->). split; [reflexivity|]. exists m, h. auto.
Qed.
Print Assumptions C79_nothing.

(** What is moved: at most the lots asked for, in their direction, at the oracle price and fees, from the liqee to the
    liqor, and never through zero; at most the pnl asked for. *)
Theorem C79_limits e s signed liqor_flag region max_base max_pnl liqor_init s' r pnl t price h :
  bpar_ok (be_par e) -> bstate_ok e s t price -> - 2 ^ 63 <= max_base -> 0 <= max_pnl -> Health.health (bs_cache s) HLiqEnd = Some h ->
  perp_liq_base e s signed liqor_flag region max_base max_pnl liqor_init = Some (s', Some (r, pnl)) ->
  exists red, 0 <= red <= Z.min (Z.abs (p_base (bs_ee s))) (Z.abs max_base) /\ 0 <= pnl <= of_int max_pnl /\
  let long := 0 <? p_base (bs_ee s) in
  let sign := if long then 1 else -1 in
  let fees := bp_fee (be_par e) + bp_plat (be_par e) in
  let notional := red * mk_bls (bs_mk s) * price in
  (if long then 0 <= max_base else max_base <= 0) /\
  p_base (bs_ee s') = p_base (bs_ee s) - sign * red /\ p_base (bs_or s') = p_base (bs_or s) + sign * red /\
  p_quote (bs_ee s') = after_funding (bs_mk s) (bs_ee s) + fmul (sign * notional) (fone - sign * fees) - pnl /\
  p_quote (bs_or s') = after_funding (bs_mk s) (bs_or s) + fmul (- sign * notional) (fone - sign * bp_fee (be_par e)) + pnl /\
  0 <= mk_fees_accrued (bs_mk s') - mk_fees_accrued (bs_mk s) /\
  p_quote (bs_ee s') + p_quote (bs_or s') + mk_fees_accrued (bs_mk s') =
    after_funding (bs_mk s) (bs_ee s) + after_funding (bs_mk s) (bs_or s) + mk_fees_accrued (bs_mk s).
Proof.
  intros P O M1 M2 Hh H. destruct (base_went _ _ _ _ _ _ _ _ _ _ _ _ _ _ P O M1 M2 Hh H) as (h' & red & L & s0 & u0 & y & d & Hh' & W).
  destruct W as [R _ _ _ SG RM [RD _] _ (x1 & x2 & x3 & x4 & C)]. exists red. destruct (co_inv _ _ _ _ _ _ _ _ _ _ _ _ _ C) as (_ & _ & _ & _ & _ & I1 & I2 & I3).
  unfold room in I1. rewrite RM in I1. pose proof (rn_pnl _ _ _ _ _ _ _ _ _ _ _ _ _ _ _ _ R) as EP. rewrite EP in I3.
  split; [lia|]. split; [exact I3|]. cbv zeta. split; [exact SG|].
  destruct (rn_end _ _ _ _ _ _ _ _ _ _ _ _ _ _ _ _ R) as (E1 & E2 & E3). rewrite E1, E2, E3.
  pose proof (rn_base _ _ _ _ _ _ _ _ _ _ _ _ _ _ _ _ R) as B. rewrite <- RD in B. destruct O as [_ _ _ _ [O1 O2] _]. destruct P as (_ & _ & _ & _ & P5 & _).
  apply C56_liq_base in B as (_ & _ & _ & _ & B1 & _ & B2 & B3 & B4 & B5 & B6 & B7 & B8 & B9 & _); [|assumption..].
  rewrite B1, B2, B5, B6, B3, B4, B9. do 4 (split; [reflexivity|]). split; [lia|]. rewrite B3, B4 in B8. lia.
Qed.
Print Assumptions C79_limits.

Lemma action_inv e s h mb mp s1 r pnl : liq_action e s h mb mp = Some (s1, r, pnl) ->
  exists hc hc1, (if 0 <? pnl then
      (exists b1 a1 a2, deposit (bs_bank s) (bs_ee_tok s) (lb_token r) (be_now e) = Some (b1, bs_ee_tok s1, a1) /\
        withdraw_without_fee b1 (bs_or_tok s) (lb_token r) (be_now e) = Some (bs_bank s1, bs_or_tok s1, a2)) /\
      adjust_token_balance (bs_cache s) (be_settle e) (lb_token r) (be_sw e) = Some hc
    else bs_bank s1 = bs_bank s /\ bs_ee_tok s1 = bs_ee_tok s /\ bs_or_tok s1 = bs_or_tok s /\ hc = bs_cache s) /\
  recompute_perp hc (bs_ee s1) (bs_mk s1) (be_settle e) (be_par e) = Some hc1 /\ bs_cache s1 = hc1 /\ bs_ee s1 = lb_liqee r /\ bs_mk s1 = lb_market r /\
  exists price red, liq_base (bs_mk s) (be_cfg e) (bs_ee s) (be_le e) (bs_or s) (be_lo e) price red pnl
    (bp_fee (be_par e)) (bp_plat (be_par e)) (bp_pnl_fee (be_par e)) (be_now e) = Some r.
Proof.
  unfold liq_action. cbv zeta. intros HA. destruct (balances _ _ _); [|discriminate]. destruct (nth_info _ _) as [[i t]|]; [|discriminate].
  destruct (perp_pos _ _) as [ip|]; [|discriminate]. destruct (nth_error _ ip) as [pi|]; [|discriminate]. destruct (uhupnl_per_lot _ _ _ _ _); [|discriminate].
  destruct (five_steps _ _ _ _ _ _ _ _) as [y|]; [|discriminate]. destruct (liq_base _ _ _ _ _ _ _ _ _ _ _ _ _) as [r1|] eqn:ER; [|discriminate].
  match type of HA with match ?m with _ => _ end = _ => destruct m as [[[[bk et] ot] hc]|] eqn:Em; [|discriminate] end.
  destruct (recompute_perp _ _ _ _ _) as [hc1|] eqn:EC; [|discriminate]. apply some_inj in HA. apply pair_equal_spec in HA as [HA EP]. apply pair_equal_spec in HA as [<- ->]. subst pnl.
  exists hc, hc1. cbn [bs_bank bs_ee_tok bs_or_tok bs_cache bs_ee bs_mk]. split.
  - destruct (0 <? tk_pnl y).
    + destruct (deposit _ _ _ _) as [[[b1 e1] a1]|]; [|discriminate]. destruct (withdraw_without_fee _ _ _ _) as [[[b2 o1] a2]|] eqn:EW; [|discriminate].
      destruct (adjust_token_balance _ _ _ _) as [hc2|]; [|discriminate]. apply some_inj in Em. do 3 (apply pair_equal_spec in Em as [Em ?]). subst.
      split; [exists b1, a1, a2; auto|reflexivity].
    + apply some_inj in Em. do 3 (apply pair_equal_spec in Em as [Em ?]). subst. auto.
  - split; [exact EC|]. split; [reflexivity|]. split; [reflexivity|]. split; [reflexivity|]. eexists _, _. exact ER.
Qed.

Lemma lb_token_eq mk c pe le po lo price red tr lf pf pnlf now r :
  liq_base mk c pe le po lo price red tr lf pf pnlf now = Some r -> lb_token r = if 0 <? tr then fmul tr (fone - pnlf) else 0.
Proof.
  unfold liq_base. cbv zeta. match goal with |- (if ?b then _ else _) = _ -> _ => destruct b; [discriminate|] end.
  destruct (update_settle_limit le c now) as [l|]; [|discriminate].
  match goal with |- (if ?b then _ else _) = _ -> _ => destruct b; [discriminate|] end.
  set (base := if 0 <? p_base (settle_funding pe mk) then - red else red). clearbody base.
  set (qe := fmul _ _). set (qo := fmul _ _). clearbody qe qo.
  destruct (base =? 0); unfold record_trade; cbv zeta;
    (destruct (0 <? tr); [destruct (takeover_limits _ _ _ _) as [x1 x2]; unfold record_liquidation_pnl_takeover; cbv zeta;
      match goal with |- context [record_settle ?p ?l ?m ?c ?x] => destruct (record_settle p l m c x) as [e1 l1] end|]);
    intros H; apply some_inj in H; subst r; reflexivity.
Qed.

(** The liqor pays for the pnl it takes over: its value less the fee, in settle tokens. *)
Theorem C79_tokens e s signed liqor_flag region max_base max_pnl liqor_init s' r pnl :
  0 < b_di (bs_bank s) -> 0 < b_bi (bs_bank s) -> 0 <= b_lof (bs_bank s) -> 0 < t_use (bs_ee_tok s) -> 0 < t_use (bs_or_tok s) ->
  perp_liq_base e s signed liqor_flag region max_base max_pnl liqor_init = Some (s', Some (r, pnl)) ->
  let paid := fmul pnl (fone - bp_pnl_fee (be_par e)) in
  let ee := native (bs_bank s') (bs_ee_tok s') - native (bs_bank s) (bs_ee_tok s) in
  let or := native (bs_bank s') (bs_or_tok s') - native (bs_bank s) (bs_or_tok s) in
  (if 0 <? pnl then paid - 2 < ee < paid + ix_round (bs_bank s) /\ - paid - 2 < or < - paid + ix_round (bs_bank s)
   else bs_ee_tok s' = bs_ee_tok s /\ bs_or_tok s' = bs_or_tok s /\ bs_bank s' = bs_bank s) /\
  b_fees (bs_bank s') = b_fees (bs_bank s) /\ b_di (bs_bank s') = b_di (bs_bank s) /\ b_bi (bs_bank s') = b_bi (bs_bank s).
Proof.
  intros D1 D2 LO U1 U2 H. cbv zeta. apply base_inv in H as (h & m & s1 & h' & _ & _ & _ & _ & _ & _ & HA & _ & Es & _ & _).
  assert (OK : index_ok (bs_bank s)) by (split; assumption).
  apply action_inv in HA as (hc & hc1 & HT & _ & _ & _ & _ & price & red & HL). change (bs_bank (flagged s true)) with (bs_bank s) in HT.
  change (bs_ee_tok (flagged s true)) with (bs_ee_tok s) in HT. change (bs_or_tok (flagged s true)) with (bs_or_tok s) in HT. change (bs_cache (flagged s true)) with (bs_cache s) in HT.
  subst s'. change (bs_bank (flagged s1 _)) with (bs_bank s1). change (bs_ee_tok (flagged s1 _)) with (bs_ee_tok s1). change (bs_or_tok (flagged s1 _)) with (bs_or_tok s1).
  destruct (Z.ltb_spec 0 pnl) as [Pp|Pp]; [|destruct HT as (-> & -> & -> & _); auto].
  destruct HT as [(b1 & a1 & a2 & E1 & E2) _].
  assert (TK : lb_token r = fmul pnl (fone - bp_pnl_fee (be_par e))).
  { rewrite (lb_token_eq _ _ _ _ _ _ _ _ _ _ _ _ _ _ HL). destruct (Z.ltb_spec 0 pnl); [reflexivity|lia]. }
  rewrite TK in *. set (tok := fmul pnl _) in *. clearbody tok.
  unfold deposit in E1. replace (negb (in_use (bs_ee_tok s))) with false in E1 by (unfold in_use; symmetry; apply negb_false_iff, Z.ltb_lt; exact U1).
  apply deposit_spec in E1 as (_ & Mv1 & F1 & _ & A1 & A1' & B1 & B2 & _); [|exact OK].
  assert (a1 = true) as -> by (destruct a1; [reflexivity|]; destruct (A1' eq_refl) as [Q _]; discriminate). rewrite (A1 eq_refl) in B1, B2. rewrite Z.sub_diag, Z.mul_0_l, Z.add_0_r in B1, B2.
  assert (OK1 : index_ok b1) by (split; rewrite ?(mv_di _ _ _ _ Mv1), ?(mv_bi _ _ _ _ Mv1); assumption).
  unfold withdraw_without_fee in E2. replace (negb (in_use (bs_or_tok s))) with false in E2 by (unfold in_use; symmetry; apply negb_false_iff, Z.ltb_lt; exact U2).
  destruct (withdraw_internal b1 (bs_or_tok s) tok false false (be_now e)) as [[[b2 o1] r1]|] eqn:E3; [|discriminate].
  apply some_inj in E2. do 2 (apply pair_equal_spec in E2 as [E2 ?]). subst b2 o1.
  apply withdraw_spec in E3 as (_ & Mv2 & _ & _ & F2 & WF & _ & A2 & A2' & B3 & B4 & _); [|exact OK1|rewrite (mv_lof _ _ _ _ Mv1); exact LO].
  cbn [andb] in WF. rewrite WF in *. rewrite Z.add_0_r in *.
  assert (W2 : w_active r1 = true) by (destruct (w_active r1); [reflexivity|]; destruct (A2' eq_refl) as [Q _]; discriminate). rewrite (A2 W2) in B3, B4. rewrite Z.sub_diag, Z.mul_0_l, Z.add_0_r in B3, B4.
  assert (PV2 : forall x, pv (bs_bank s1) x = pv (bs_bank s) x) by (intros x; rewrite (moved_pv _ _ _ _ _ Mv2), (moved_pv _ _ _ _ _ Mv1); reflexivity).
  assert (PV1 : forall x, pv b1 x = pv (bs_bank s) x) by (intros x; rewrite (moved_pv _ _ _ _ _ Mv1); reflexivity).
  rewrite !PV1 in B3, B4.
  pose proof (native_bounds (bs_bank s1) (bs_ee_tok s1)) as N1. pose proof (native_bounds (bs_bank s1) (bs_or_tok s1)) as N2. rewrite PV2 in N1, N2.
  pose proof (native_bounds (bs_bank s) (bs_ee_tok s)) as N3. pose proof (native_bounds (bs_bank s) (bs_or_tok s)) as N4.
  pose proof (ix_round_bound (bs_bank s) OK) as IR.
  assert (DI : b_di b1 = b_di (bs_bank s) /\ b_bi b1 = b_bi (bs_bank s)) by (destruct Mv1; auto). destruct DI as [DI1 DI2]. rewrite DI1, DI2 in B4.
  pose proof fone_pos as FP. split; [|split; [lia|destruct Mv2, Mv1; split; congruence]].
  clear - B1 B2 B3 B4 N1 N2 N3 N4 IR FP D1 D2. set (mx := Z.max _ _) in *. set (n1 := native (bs_bank s1) _) in *. set (n2 := native (bs_bank s1) _) in *.
  set (n3 := native (bs_bank s) _) in *. set (n4 := native (bs_bank s) _) in *. set (ir := ix_round _) in *. clearbody mx n1 n2 n3 n4 ir.
  set (p1 := pv _ _) in *. set (p2 := pv _ _) in *. set (p3 := pv _ _) in *. set (p4 := pv _ _) in *. clearbody p1 p2 p3 p4.
  split; split; nia.
Qed.
Print Assumptions C79_tokens.


(** The health the instruction checks afterwards is that of the new state: the cache shows the new perp position, the
    settle token balance with the payment, and everything else as it was. *)
Lemma perp_pos_update (m : Z) f : forall P i, perp_pos P m = Some i -> (forall pi, pi_market (f pi) = m) -> perp_pos (update_nth P i f) m = Some i.
Proof.
  unfold perp_pos. induction P as [|q P IH]; intros i H Hf; cbn [position_of] in H; [discriminate|].
  destruct (pi_market q =? m) eqn:E.
  - apply some_inj in H. subst i. cbn [update_nth position_of]. rewrite Hf, Z.eqb_refl. reflexivity.
  - destruct (position_of _ P) as [j|] eqn:EP; [|discriminate]. apply some_inj in H. subst i. cbn [update_nth position_of]. rewrite E. rewrite (IH j eq_refl Hf). reflexivity.
Qed.
Theorem C79_shown e s signed liqor_flag region max_base max_pnl liqor_init s' r pnl t price :
  bstate_ok e s t price -> perp_liq_base e s signed liqor_flag region max_base max_pnl liqor_init = Some (s', Some (r, pnl)) ->
  let P := hc_perps (bs_cache s) in let P' := hc_perps (bs_cache s') in
  let T := hc_tokens (bs_cache s) in let T' := hc_tokens (bs_cache s') in
  (exists i pr, perp_pos P' (mk_index (bs_mk s')) = Some i /\ pr_oracle pr = price /\
     nth_error P' i = Some (new_pinfo (bs_ee s') (bs_mk s') (be_settle e) (bp_init_aw (be_par e)) (bp_init_lw (be_par e))
       (bp_maint_ov (be_par e)) (bp_init_ov (be_par e)) pr) /\ forall j, j <> i -> nth_error P' j = nth_error P j) /\
  (exists k, token_pos T (be_settle e) = Some k /\
     map ti_spot T' = add_at (map ti_spot T) k (if 0 <? pnl then fmul pnl (fone - bp_pnl_fee (be_par e)) else 0)) /\
  map ti_index T' = map ti_index T /\ map ti_prices T' = map ti_prices T /\ map ti_init_aw T' = map ti_init_aw T /\ map ti_init_lw T' = map ti_init_lw T /\
  hc_serum (bs_cache s') = hc_serum (bs_cache s).
Proof.
  intros [_ [k Ok] _ (ip & pr & Op1 & Op2 & Op3) _ _] H. cbv zeta. apply base_inv in H as (h & m & s1 & h' & _ & _ & _ & _ & _ & _ & HA & _ & Es & _ & _).
  apply action_inv in HA as (hc & hc1 & HT & HR & E1 & E2 & E3 & p1 & red & HL). subst s'.
  change (bs_cache (flagged s1 _)) with (bs_cache s1). change (bs_ee (flagged s1 _)) with (bs_ee s1). change (bs_mk (flagged s1 _)) with (bs_mk s1).
  change (bs_cache (flagged s true)) with (bs_cache s) in HT. rewrite E1.
  pose proof (lb_token_eq _ _ _ _ _ _ _ _ _ _ _ _ _ _ HL) as TK. pose proof (lb_more _ _ _ _ _ _ _ _ _ _ _ _ _ _ HL) as (_ & _ & _ & _ & _ & _ & M7 & _).
  change (bs_mk (flagged s true)) with (bs_mk s) in M7. rewrite <- E3 in M7.
  assert (X : hc_perps hc = hc_perps (bs_cache s) /\ hc_serum hc = hc_serum (bs_cache s) /\
    (exists k, token_pos (hc_tokens (bs_cache s)) (be_settle e) = Some k /\
     map ti_spot (hc_tokens hc) = add_at (map ti_spot (hc_tokens (bs_cache s))) k (lb_token r)) /\
     map ti_index (hc_tokens hc) = map ti_index (hc_tokens (bs_cache s)) /\ map ti_prices (hc_tokens hc) = map ti_prices (hc_tokens (bs_cache s)) /\
     map ti_init_aw (hc_tokens hc) = map ti_init_aw (hc_tokens (bs_cache s)) /\ map ti_init_lw (hc_tokens hc) = map ti_init_lw (hc_tokens (bs_cache s))).
  { unfold nth_info in Ok. destruct (token_pos (hc_tokens (bs_cache s)) (be_settle e)) as [k'|] eqn:Ek; [|discriminate].
    destruct (0 <? pnl).
    - destruct HT as [_ HT]. unfold adjust_token_balance in HT. rewrite Ek in HT. apply some_inj in HT. subst hc. cbn [hc_perps hc_serum hc_tokens].
      split; [reflexivity|]. split; [reflexivity|]. split; [exists k'; split; [reflexivity|apply spot_update']|].
      rewrite !update_nth_map by (intros []; reflexivity). auto.
    - destruct HT as (_ & _ & _ & ->). split; [reflexivity|]. split; [reflexivity|]. split; [|auto]. exists k'. split; [reflexivity|]. rewrite TK. clear.
      generalize (map ti_spot (hc_tokens (bs_cache s))). intros B. revert k'. induction B as [|b B IH]; intros [|k]; cbn [add_at]; try reflexivity; f_equal; [lia|apply IH]. }
  destruct X as (X1 & X2 & X3 & X4 & X5 & X6 & X7).
  unfold recompute_perp in HR. rewrite X1, M7, Op1 in HR. apply some_inj in HR. subst hc1. cbn [hc_tokens hc_serum hc_perps]. rewrite X2, TK in *. 
  split; [|tauto]. exists ip, pr. rewrite M7.
  split; [apply perp_pos_update; [exact Op1|intros pi; cbn [new_pinfo pi_market]; exact M7]|]. split; [exact Op2|].
  split; [rewrite update_nth_nth, Nat.eqb_refl, Op3; reflexivity|]. intros j Hj. rewrite update_nth_nth. destruct (Nat.eqb_spec ip j); [congruence|reflexivity].
Qed.
Print Assumptions C79_shown.

(** ** C80: no more than one lot too much *)
Lemma went_small e s s' t price h h' mb mp red r pnl L s0 u0 y d : went e s s' t price h h' mb mp red r pnl L s0 u0 y d ->
  lots_small (be_par e) (bs_mk s) price (p_base (bs_ee s)) t -> small t L.
Proof. intros [_ [EL _] EW _ _ _ _ _ _] S. unfold small. rewrite EW, EL. exact S. Qed.

Theorem C80_not_too_much e s signed liqor_flag region max_base max_pnl liqor_init s' r pnl t price h :
  bpar_ok (be_par e) -> bstate_ok e s t price -> lots_small (be_par e) (bs_mk s) price (p_base (bs_ee s)) t ->
  - 2 ^ 63 <= max_base -> 0 <= max_pnl -> Health.health (bs_cache s) HLiqEnd = Some h ->
  perp_liq_base e s signed liqor_flag region max_base max_pnl liqor_init = Some (s', Some (r, pnl)) ->
  exists h', Health.health (bs_cache s') HLiqEnd = Some h' /\
  let lot := lot_gain (be_par e) (mk_bls (bs_mk s)) price (p_base (bs_ee s)) in
  let red := Z.abs (p_base (bs_ee s)) - Z.abs (p_base (bs_ee s')) in
  h' * fone < Z.max (h * fone) (lot * settle_price t) + (2 * red + lot / fone + 4) * settle_price t + 4 * fone.
Proof.
  intros P O Sm M1 M2 Hh H. destruct (base_went _ _ _ _ _ _ _ _ _ _ _ _ _ _ P O M1 M2 Hh H) as (h' & red & L & s0 & u0 & y & d & Hh' & W).
  exists h'. split; [exact Hh'|]. cbv zeta. pose proof (went_small _ _ _ _ _ _ _ _ _ _ _ _ _ _ _ _ _ W Sm) as SM.
  destruct W as [R [EL LP] EW HW SG RM [RD RD'] _ (x1 & x2 & x3 & x4 & C)]. rewrite <- RD', <- EL. rewrite <- EW. destruct P as (P1 & P2 & P3 & P4 & P5 & P6 & P7).
  pose proof fone_pos as FP. pose proof (rn_h _ _ _ _ _ _ _ _ _ _ _ _ _ _ _ _ R) as RH. pose proof (rn_d _ _ _ _ _ _ _ _ _ _ _ _ _ _ _ _ R) as D. pose proof (rn_pnl _ _ _ _ _ _ _ _ _ _ _ _ _ _ _ _ R) as EP.
  set (g := fone - bp_pnl_fee (be_par e)) in *. set (w := bp_init_ov (be_par e)) in *.
  destruct (course_gap _ _ _ _ _ _ _ HW _ _ _ _ _ _ d C SM LP ltac:(unfold g in *; lia) ltac:(lia) eq_refl eq_refl D) as (GU & GR). cbv zeta in GR. cbn [tk_u tk_s] in GU, GR.
  pose proof (course_h _ _ _ _ _ _ _ HW _ _ _ _ _ _ C) as CH. unfold same_h in CH. cbn [tk_h tk_s] in CH.
  rewrite <- EP, <- GU in RH. set (real := PerpLiqBaseFacts.weigh w (tk_u y + d) - PerpLiqBaseFacts.weigh w u0 + fmul (tk_pnl y) g) in *.
  set (K := Z.max (h * fone + 1) (2 * fone + L * liab_wp t HLiqEnd)).
  pose proof (course_over _ _ _ _ _ _ _ HW _ _ _ _ _ _ K C LP ltac:(lia) ltac:(unfold g; lia) ltac:(unfold K; lia)) as CO. cbn [tk_h] in CO. specialize (CO ltac:(unfold K; lia)).
  pose proof (V_lip_le t HW (tk_s y) (s0 + real) (2 * tk_red y + L / fone + 4) ltac:(lia)) as VL.
  assert (LF : 0 <= L / fone) by (apply Z.div_pos; lia). specialize (VL ltac:(lia)).
  pose proof (CV t (s0 + real)) as C1. pose proof (CV t (tk_s y)) as C2. rewrite RD. clearbody real.
  set (c0 := contribution t HLiqEnd s0) in *. set (c1 := contribution t HLiqEnd (s0 + real)) in *. set (c2 := contribution t HLiqEnd (tk_s y)) in *.
  set (lwp := liab_wp t HLiqEnd) in *. set (v1 := worth _ _ (s0 + real)) in *. set (v2 := worth _ _ (tk_s y)) in *. set (n := 2 * tk_red y + L / fone + 4) in *. set (Ll := L * lwp) in *. set (nl := n * lwp) in *.
  clearbody c0 c1 c2 v1 v2 lwp n Ll nl. unfold K in CO. clear K. clear - RH CH CO VL C1 C2 FP. 
  assert (E : h' = tk_h y - c2 + c1) by lia. subst h'.
  assert (MX : Z.max (h * fone + 1) (2 * fone + Ll) <= Z.max (h * fone) Ll + 2 * fone) by lia.
  nia.
Qed.
Print Assumptions C80_not_too_much.

(** ** C81: enough *)
(** When the position and the maximum asked for would have allowed more lots, the liquidation stopped because the health
    had come up to minus half a unit (but for what one lot gives); or because the overall weight is zero, so that lots only
    help while their gain is taken over as pnl, and the liqor's limit for that was used up or the position's health was
    within rounding of zero. *)
Theorem C81_enough e s signed liqor_flag region max_base max_pnl liqor_init s' r pnl t price h :
  bpar_ok (be_par e) -> bstate_ok e s t price -> lots_small (be_par e) (bs_mk s) price (p_base (bs_ee s)) t ->
  - 2 ^ 63 <= max_base -> 0 <= max_pnl -> Health.health (bs_cache s) HLiqEnd = Some h ->
  perp_liq_base e s signed liqor_flag region max_base max_pnl liqor_init = Some (s', Some (r, pnl)) ->
  exists h', Health.health (bs_cache s') HLiqEnd = Some h' /\
  let lot := lot_gain (be_par e) (mk_bls (bs_mk s)) price (p_base (bs_ee s)) in
  let red := Z.abs (p_base (bs_ee s)) - Z.abs (p_base (bs_ee s')) in
  red < Z.min (Z.abs (p_base (bs_ee s))) (Z.abs max_base) ->
  - (fone / 2 + 1) * fone - (lot + 4) * settle_price t < h' * fone \/
  bp_init_ov (be_par e) = 0 /\ (of_int max_pnl - pnl <= lot / fone + 2 \/
     - (lot / fone) - 2 <= pos_health (be_par e) (bs_mk s') (bs_ee s') price < red).
Proof.
  intros P O Sm M1 M2 Hh H. destruct (base_went _ _ _ _ _ _ _ _ _ _ _ _ _ _ P O M1 M2 Hh H) as (h' & red & L & s0 & u0 & y & d & Hh' & W).
  exists h'. split; [exact Hh'|]. cbv zeta. pose proof (went_small _ _ _ _ _ _ _ _ _ _ _ _ _ _ _ _ _ W Sm) as SM.
  destruct W as [R [EL LP] EW HW SG RM [RD RD'] _ (x1 & x2 & x3 & x4 & C)]. rewrite <- RD', <- EL. rewrite <- EW. destruct P as (P1 & P2 & P3 & P4 & P5 & P6 & P7). intros LT.
  pose proof fone_pos as FP. pose proof (rn_h _ _ _ _ _ _ _ _ _ _ _ _ _ _ _ _ R) as RH. pose proof (rn_d _ _ _ _ _ _ _ _ _ _ _ _ _ _ _ _ R) as D. pose proof (rn_pnl _ _ _ _ _ _ _ _ _ _ _ _ _ _ _ _ R) as EP.
  pose proof (rn_u _ _ _ _ _ _ _ _ _ _ _ _ _ _ _ _ R) as RU.
  set (g := fone - bp_pnl_fee (be_par e)) in *. set (w := bp_init_ov (be_par e)) in *.
  destruct (course_gap _ _ _ _ _ _ _ HW _ _ _ _ _ _ d C SM LP ltac:(unfold g in *; lia) ltac:(lia) eq_refl eq_refl D) as (GU & GR). cbv zeta in GR. cbn [tk_u tk_s] in GU, GR.
  pose proof (course_h _ _ _ _ _ _ _ HW _ _ _ _ _ _ C) as CH. unfold same_h in CH. cbn [tk_h tk_s] in CH.
  pose proof (course_complete _ _ _ _ _ _ _ HW _ _ _ _ _ _ C SM LP ltac:(unfold g in *; lia) ltac:(unfold g in *; lia)) as CC.
  unfold room in CC. rewrite RM, <- RD in CC. specialize (CC ltac:(lia)). rewrite EP in CC. rewrite <- EP, <- GU in RU.
  destruct CC as [CC|[CC1 [CC2|CC2]]]; [left|right; split; [exact CC1|left; exact CC2]|right; split; [exact CC1|right; rewrite RU; lia]].
  rewrite <- EP, <- GU in RH. set (real := PerpLiqBaseFacts.weigh w (tk_u y + d) - PerpLiqBaseFacts.weigh w u0 + fmul (tk_pnl y) g) in *.
  pose proof (V_lip_le t HW (s0 + real) (tk_s y) (L + 4) ltac:(lia) ltac:(lia)) as VL.
  pose proof (CV t (s0 + real)) as C1. pose proof (CV t (tk_s y)) as C2. clearbody real.
  change (fone / 2) with (2 ^ 47). unfold MINUS_HALF in CC.
  set (c0 := contribution t HLiqEnd s0) in *. set (c1 := contribution t HLiqEnd (s0 + real)) in *. set (c2 := contribution t HLiqEnd (tk_s y)) in *.
  set (lwp := liab_wp t HLiqEnd) in *. set (v1 := worth _ _ (s0 + real)) in *. set (v2 := worth _ _ (tk_s y)) in *. set (nl := (L + 4) * lwp) in *.
  clearbody c0 c1 c2 v1 v2 lwp nl. clear - RH CH VL C1 C2 FP CC. 
  assert (E : h' = tk_h y - c2 + c1) by lia. subst h'. nia.
Qed.
Print Assumptions C81_enough.

(** ** when nothing can be moved *)
Lemma stuck_steps t base mb mp L g x y : tk_u x < 0 -> - tk_u x * fone < L -> 0 <= asset_wp t HLiqEnd <= liab_wp t HLiqEnd -> 0 <= room base mb x ->
  five_steps t base mb mp L g 0 x = Some y -> tk_red y = tk_red x /\ tk_pnl y = tk_pnl x.
Proof.
  intros U HL HW RM. unfold five_steps, step1. destruct (Z.ltb_spec (tk_u x) 0); [|lia]. clear H.
  destruct (reduce_base _ _ _ _ _ _ _ _) as [x1|] eqn:E; [|discriminate].
  assert (X : tk_red x1 = tk_red x /\ tk_pnl x1 = tk_pnl x /\ tk_u x1 < 0).
  { unfold reduce_base in E. destruct (spot_amount_given _ _ _ _) as [need|] eqn:EN; [|discriminate]. destruct (guard _); [|discriminate].
    destruct (cdiv _ _) as [q|] eqn:Eq; [|discriminate]. destruct (chk_i64 (ceil_int q)) as [n|] eqn:En; [|discriminate]. cbv zeta in E. apply some_inj in E.
    apply (need_facts t HW) in EN as (N0 & _). pose proof fone_pos as FP.
    assert (q = 0). { unfold cdiv in Eq. destruct (Z.eqb_spec L 0); [discriminate|]. apply some_inj in Eq. subst q. unfold fdiv. apply Z.quot_small. nia. }
    subst q. assert (n = 0). { change (chk_i64 (ceil_int 0)) with (Some 0) in En. congruence. } subst n.
    unfold room in RM.
    match type of E with mkTk (_ + ?l) _ _ _ _ = _ => assert (L0 : l = 0) by lia; rewrite L0 in E end. subst x1. cbn [tk_red tk_pnl tk_u]. rewrite fmul_int_r. lia. }
  destruct X as (X1 & X2 & X3). assert (S24 : step24 t mp g 0 x1 = Some x1) by (unfold step24; destruct (Z.leb_spec 0 (tk_u x1)); [lia|reflexivity]).
  assert (S3 : step3 t base mb mp L g 0 x1 = Some x1) by (unfold step3; destruct (Z.leb_spec 0 (tk_u x1)); [lia|reflexivity]).
  rewrite S24, S3, S24. unfold step5. rewrite Z.ltb_irrefl, andb_false_r. intros Ey. apply some_inj in Ey. subst y. auto.
Qed.
(** With overall weight zero and a position whose health is negative, but by less than 2^-48 of what a lot gives, a
    liquidation moves nothing, whatever the liqor asks for. *)
Theorem C81_stuck e s signed liqor_flag region max_base max_pnl liqor_init s' r pnl t price h :
  bpar_ok (be_par e) -> bstate_ok e s t price -> - 2 ^ 63 <= max_base -> 0 <= max_pnl -> Health.health (bs_cache s) HLiqEnd = Some h ->
  bp_init_ov (be_par e) = 0 ->
  - lot_gain (be_par e) (mk_bls (bs_mk s)) price (p_base (bs_ee s)) < pos_health (be_par e) (bs_mk s) (bs_ee s) price * fone < 0 ->
  perp_liq_base e s signed liqor_flag region max_base max_pnl liqor_init = Some (s', Some (r, pnl)) ->
  p_base (bs_ee s') = p_base (bs_ee s) /\ p_base (bs_or s') = p_base (bs_or s) /\ pnl = 0 /\ bs_bank s' = bs_bank s /\ bs_ee_tok s' = bs_ee_tok s /\ bs_or_tok s' = bs_or_tok s.
Proof.
  intros P O M1 M2 Hh OV U H. destruct (base_went _ _ _ _ _ _ _ _ _ _ _ _ _ _ P O M1 M2 Hh H) as (h' & red & L & s0 & u0 & y & d & Hh' & W).
  pose proof (C79_limits _ _ _ _ _ _ _ _ _ _ _ _ _ _ P O M1 M2 Hh H) as (red2 & _ & _ & CL). cbv zeta in CL. destruct CL as (_ & CL1 & CL2 & _).
  destruct W as [R [EL LP] EW HW SG RM [RD RD'] _ (x1 & x2 & x3 & x4 & C)]. pose proof (rn_five _ _ _ _ _ _ _ _ _ _ _ _ _ _ _ _ R) as F. rewrite OV in F.
  pose proof (rn_u0 _ _ _ _ _ _ _ _ _ _ _ _ _ _ _ _ R) as EU. rewrite <- EU, <- EL in U. pose proof fone_pos as FP.
  apply stuck_steps in F as [F1 F2]; [|cbn [tk_u]; nia|cbn [tk_u]; lia|exact HW|unfold room; cbn [tk_red]; lia]. cbn [tk_red tk_pnl] in F1, F2.
  rewrite (rn_pnl _ _ _ _ _ _ _ _ _ _ _ _ _ _ _ _ R) in F2. assert (R0 : red2 = 0).
  { rewrite F1 in RD. subst red. rewrite CL1 in RD'. destruct (Z.ltb_spec 0 (p_base (bs_ee s))); pose proof (rn_base _ _ _ _ _ _ _ _ _ _ _ _ _ _ _ _ R) as B;
      destruct (rn_end _ _ _ _ _ _ _ _ _ _ _ _ _ _ _ _ R) as (E1 & _); destruct O as [_ _ _ _ [O1 O2] _]; destruct P as (_ & _ & _ & _ & P5 & _);
      apply C56_liq_base in B as (_ & _ & _ & _ & B & _); try assumption; rewrite <- E1, CL1, F1 in B; destruct (Z.ltb_spec 0 (p_base (bs_ee s))); lia. }
  rewrite R0, Z.mul_0_r, ?Z.sub_0_r, ?Z.add_0_r in *. split; [exact CL1|]. split; [exact CL2|]. split; [exact F2|].
  apply base_inv in H as (h1 & m & s1 & h2 & _ & _ & _ & _ & _ & _ & HA & _ & Es & _ & _). apply action_inv in HA as (hc & hc1 & HT & _). subst pnl s'. cbn [Z.ltb Z.compare] in HT.
  destruct HT as (T1 & T2 & T3 & _). auto.
Qed.
Print Assumptions C81_stuck.

(** ** concrete cases *)
Definition ex_bpar (ov pnl_fee : Z) : bpar := mkBP (pct 80) (pct 120) (pct ov) (pct ov) (pct 5) (pct 1) (pct pnl_fee).
Definition ex_bmk : market := mkMarket 3 0 10 1 0 0 0 0 1000 0 0 (pct 90) (pct 110).
Definition ex_benv (ov pnl_fee : Z) : benv := mkBE (ex_bpar ov pnl_fee) ex_lc 0 lim0 lim0 50 (fone, fone).
Definition ex_btok (n : Z) : tpos := mkTpos (of_int n / 1000000) 1.
Definition ex_bst (flag : bool) (ov base : Z) (quote : fx) (settle : Z) : bstate :=
  let p := mkPos base quote 0 0 0 0 0 0 0 in
  let et := ex_btok settle in let ot := ex_btok 500 in let b := ex_lbank et ot in
  mkBS (mkHC [ex_info 0 100 100 100 100 fone b et] []
    [new_pinfo p ex_bmk 0 (pct 80) (pct 120) (pct ov) (pct ov) (mkPr fone fone)]) flag ex_bmk p (mkPos 5 0 0 0 0 0 0 0 0) b et ot.
Definition ex_btinfo (s : bstate) : tinfo := ex_info 0 100 100 100 100 fone (bs_bank s) (bs_ee_tok s).
Ltac bpok := unfold bpar_ok; do 6 (split; [zc|]); zc.
Ltac bsok := constructor;
  [constructor|exists 0%nat; reflexivity|split; [split; zc|zc]|exists 0%nat, (mkPr fone fone); split; [reflexivity|]; split; reflexivity|split; zc|split; zc].

(** 100 lots of 10, long, worth 1000, weights 0.8/0.9, quote -1010, 100 settle tokens, fees 5% + 1%: LiquidationEnd health is
    about -110; 79 lots, gaining 1.4 each, are taken and the health comes to about 0 *)
Example C79_example : let e := ex_benv 90 2 in let s := ex_bst false 90 100 (of_int (-1010)) 100 in
  bpar_ok (be_par e) /\ bstate_ok e s (ex_btinfo s) fone /\ lots_small (be_par e) (bs_mk s) fone (p_base (bs_ee s)) (ex_btinfo s) /\
  option_map to_int (Health.health (bs_cache s) HMaint) = Some (-11) /\ option_map to_int (Health.health (bs_cache s) HLiqEnd) = Some (-111) /\
  exists s' r pnl, perp_liq_base e s true false false 100 1000 (fun _ => 0) = Some (s', Some (r, pnl)) /\
    p_base (bs_ee s') = 21 /\ p_base (bs_or s') = 84 /\ pnl = 0 /\ option_map to_int (Health.health (bs_cache s') HLiqEnd) = Some 0 /\ bs_flag s' = false.
Proof.
  cbv zeta. split; [bpok|]. split; [bsok|]. split; [unfold lots_small; zc|]. split; [vm_compute; reflexivity|]. split; [vm_compute; reflexivity|].
  eexists _, _, _. split; [vm_compute; reflexivity|]. do 4 (split; [vm_compute; reflexivity|]). reflexivity.
Qed.
(** all five steps: quote -750 makes the health of the position positive, but a debt of 60 settle tokens outweighs the half
    of it that counts; pnl of 59 and 9 lots are taken over *)
Example C80_example : let e := ex_benv 50 2 in let s := ex_bst true 50 100 (of_int (-750)) (-60) in
  bpar_ok (be_par e) /\ bstate_ok e s (ex_btinfo s) fone /\ lots_small (be_par e) (bs_mk s) fone (p_base (bs_ee s)) (ex_btinfo s) /\
  option_map to_int (Health.health (bs_cache s) HLiqEnd) = Some (-36) /\ 0 < t_use (bs_ee_tok s) /\ 0 < t_use (bs_or_tok s) /\
  exists s' r pnl, perp_liq_base e s true false false 100 1000 (fun _ => 0) = Some (s', Some (r, pnl)) /\
    p_base (bs_ee s') = 91 /\ p_base (bs_or s') = 14 /\ to_int pnl = 59 /\ option_map to_int (Health.health (bs_cache s') HLiqEnd) = Some 0 /\
    to_int (native (bs_bank s') (bs_ee_tok s')) = -2 /\ to_int (native (bs_bank s') (bs_or_tok s')) = 441.
Proof.
  cbv zeta. split; [bpok|]. split; [bsok|]. split; [unfold lots_small; zc|]. split; [vm_compute; reflexivity|]. split; [reflexivity|]. split; [reflexivity|].
  eexists _, _, _. split; [vm_compute; reflexivity|]. do 5 (split; [vm_compute; reflexivity|]). vm_compute; reflexivity.
Qed.
(** a short position: as many lots as asked for, too few for the health *)
Example C81_example : let e := ex_benv 50 2 in let s := ex_bst true 50 (-100) (of_int 1250) (-60) in
  bpar_ok (be_par e) /\ bstate_ok e s (ex_btinfo s) fone /\ lots_small (be_par e) (bs_mk s) fone (p_base (bs_ee s)) (ex_btinfo s) /\
  (exists s' r pnl, perp_liq_base e s true false false (-100) 1000 (fun _ => 0) = Some (s', Some (r, pnl)) /\
    p_base (bs_ee s') = -91 /\ to_int pnl = 59 /\ option_map to_int (Health.health (bs_cache s') HLiqEnd) = Some (-1)) /\
  (exists s' r pnl, perp_liq_base e s true false false (-4) 55 (fun _ => 0) = Some (s', Some (r, pnl)) /\
    p_base (bs_ee s') = -96 /\ to_int pnl = 55) /\
  perp_liq_base e s true false false 100 1000 (fun _ => 0) = None.
Proof.
  cbv zeta. split; [bpok|]. split; [bsok|]. split; [unfold lots_small; zc|].
  split; [eexists _, _, _; split; [vm_compute; reflexivity|]; do 2 (split; [vm_compute; reflexivity|]); vm_compute; reflexivity|].
  split; [eexists _, _, _; split; [vm_compute; reflexivity|]; split; vm_compute; reflexivity|]. vm_compute; reflexivity.
Qed.

(** The bound on the overall weight is needed and the program does not check it: with overall weight 1 and a fee of 10% on
    taken over pnl, step 3 takes lots for what they would give as taken over pnl, but they give more: five lots too many. *)
Theorem C80_weight_refuted : exists e s t h h' s' r pnl, bp_init_ov (be_par e) = fone /\ bp_pnl_fee (be_par e) = pct 10 /\
  bstate_ok e s t fone /\ lots_small (be_par e) (bs_mk s) fone (p_base (bs_ee s)) t /\
  Health.health (bs_cache s) HLiqEnd = Some h /\ perp_liq_base e s true false false 100 1000 (fun _ => 0) = Some (s', Some (r, pnl)) /\
  Health.health (bs_cache s') HLiqEnd = Some h' /\ h < 0 /\
  h' > 4 * lot_gain (be_par e) (mk_bls (bs_mk s)) fone (p_base (bs_ee s)) + fone.
Proof.
  exists (ex_benv 100 10), (ex_bst true 100 100 (of_int (-800)) (-60)), (ex_btinfo (ex_bst true 100 100 (of_int (-800)) (-60))).
  exists (match Health.health (bs_cache (ex_bst true 100 100 (of_int (-800)) (-60))) HLiqEnd with Some h => h | None => 0 end).
  exists (match perp_liq_base (ex_benv 100 10) (ex_bst true 100 100 (of_int (-800)) (-60)) true false false 100 1000 (fun _ => 0) with
          | Some (s', _) => match Health.health (bs_cache s') HLiqEnd with Some h => h | None => 0 end | None => 0 end).
  eexists _, _, _. split; [vm_compute; reflexivity|]. split; [reflexivity|]. split; [bsok|]. split; [unfold lots_small; zc|]. split; [vm_compute; reflexivity|].
  split; [vm_compute; reflexivity|]. split; [vm_compute; reflexivity|]. split; [zc|]. apply Z.lt_gt. zc.
Qed.
Print Assumptions C80_weight_refuted.

(** A liquidatable account that cannot be liquidated: overall weight 0, health of the position one smallest unit below zero. *)
Theorem C81_progress_refuted : exists e s t h m, bpar_ok (be_par e) /\ bstate_ok e s t fone /\ lots_small (be_par e) (bs_mk s) fone (p_base (bs_ee s)) t /\
  Health.health (bs_cache s) HLiqEnd = Some h /\ Health.health (bs_cache s) HMaint = Some m /\ m < of_int (-50) /\ h < of_int (-50) /\ p_base (bs_ee s) = 100 /\
  (exists s' r, perp_liq_base e s true false false 100 1000 (fun _ => 0) = Some (s', Some (r, 0))) /\
  forall signed liqor_flag region max_base max_pnl liqor_init s' r pnl, - 2 ^ 63 <= max_base -> 0 <= max_pnl ->
    perp_liq_base e s signed liqor_flag region max_base max_pnl liqor_init = Some (s', Some (r, pnl)) ->
    p_base (bs_ee s') = 100 /\ pnl = 0 /\ bs_ee_tok s' = bs_ee_tok s.
Proof.
  exists (ex_benv 0 2), (ex_bst true 0 100 (of_int (-800) + 799) (-60)), (ex_btinfo (ex_bst true 0 100 (of_int (-800) + 799) (-60))).
  exists (match Health.health (bs_cache (ex_bst true 0 100 (of_int (-800) + 799) (-60))) HLiqEnd with Some h => h | None => 0 end).
  exists (match Health.health (bs_cache (ex_bst true 0 100 (of_int (-800) + 799) (-60))) HMaint with Some h => h | None => 0 end).
  assert (B : bpar_ok (be_par (ex_benv 0 2))) by bpok.
  assert (O : bstate_ok (ex_benv 0 2) (ex_bst true 0 100 (of_int (-800) + 799) (-60)) (ex_btinfo (ex_bst true 0 100 (of_int (-800) + 799) (-60))) fone) by bsok.
  split; [exact B|]. split; [exact O|]. split; [unfold lots_small; zc|]. split; [vm_compute; reflexivity|]. split; [vm_compute; reflexivity|]. split; [zc|]. split; [zc|]. split; [reflexivity|].
  split; [eexists _, _; vm_compute; reflexivity|].
  intros sg lf rg mb mp li s' r pnl M1 M2 H.
  eapply (C81_stuck _ _ _ _ _ _ _ _ _ _ _ _ _ _ B O M1 M2) in H as (X1 & _ & X2 & _ & X3 & _); [auto|vm_compute; reflexivity|reflexivity|split; zc].
Qed.
Print Assumptions C81_progress_refuted.
