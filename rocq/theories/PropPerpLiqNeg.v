(** C82: what a liquidation of negative perp pnl may move and under which conditions; C83: it
    raises the health of the liqee by no more than needed, settles only what its spot balances
    can pay, and goes as far as it can.  Public statements. *)
From Coq Require Import List ZArith Lia Bool Arith.
From Verif Require Import OrderTree Keys PerpTypes SettleLimit SettleFacts PerpMoney PerpMoneySpec PerpCancel PerpClaims PerpClaims2 PropPerpLiq Interest Bank BankFacts BankInv Health HealthSpec HealthFacts HealthMore PropHealth
  LiqState TokenLiq TokenLiqSpec TokenLiqFacts PropTokenLiq PerpLiqBase PerpLiqBaseSpec PerpLiqBaseFacts PerpLiqBaseIx PropPerpLiqBase PerpLiqNeg PerpLiqNegSpec PerpLiqNegFacts Fixed.
Import ListNotations.
Open Scope Z_scope.

Definition nflagged (s : nstate) (f : bool) : nstate :=
  mkNS (ns_cache s) f (ns_mk s) (ns_ee s) (ns_or s) (ns_bank s) (ns_ee_tok s) (ns_or_tok s) (ns_ins s) (ns_vault s).
Lemma nflagged_ok e s f t : nstate_ok e s t -> nstate_ok e (nflagged s f) t.
Proof. intros []. constructor; assumption. Qed.
Lemma neg_inv e s sg lf rg ml hl s' r : perp_liq_negative e s sg lf rg ml hl = Some (s', Some r) ->
  exists h m zp s1 h', sg = true /\ lf = false /\ Health.health (ns_cache s) HLiqEnd = Some h /\ spot_zip (ns_cache s) = Some zp /\ after_phase2 (ns_cache s) zp = true /\
    Health.health (ns_cache s) HMaint = Some m /\ check_liquidatable (ns_flag s) m h = (Liquidatable, true) /\
    neg_action e (nflagged s true) h ml = Some (s1, r) /\
    Health.health (ns_cache s1) HLiqEnd = Some h' /\ s' = nflagged s1 (recover (ns_flag s1) h') /\ (rg = true \/ 0 <= hl s').
Proof.
  unfold perp_liq_negative. cbv zeta. destruct sg; cbn [guard]; [|discriminate]. destruct lf; cbn [guard negb]; [discriminate|].
  destruct (Health.health (ns_cache s) HLiqEnd) as [h|]; [|discriminate]. destruct (spot_zip _) as [zp|]; [|discriminate]. destruct (after_phase2 _ _) eqn:AP; cbn [guard]; [|discriminate].
  destruct (Health.health (ns_cache s) HMaint) as [m|]; [|discriminate].
  destruct (check_liquidatable (ns_flag s) m h) as [[] f] eqn:CL; try discriminate.
  assert (f = true) as ->. { unfold check_liquidatable in CL. destruct (ns_flag s); [destruct (recover true h)|destruct (0 <=? m)]; congruence. }
  destruct (neg_action _ _ _ _) as [[s1 r1]|] eqn:E; [|discriminate].
  destruct (Health.health (ns_cache s1) HLiqEnd) as [h'|] eqn:E'; [|discriminate].
  destruct (rg || (0 <=? _)) eqn:G; cbn [guard]; [|discriminate].
  intros H. apply some_inj in H. apply pair_equal_spec in H as [H1 H2]. apply some_inj in H2. subst r1.
  exists h, m, zp, s1, h'. do 7 (split; [first [assumption|reflexivity]|]). split; [exact E|]. split; [exact E'|]. split; [subst s'; reflexivity|].
  apply orb_prop in G as [G|G]; [left; exact G|right; apply Z.leb_le in G; subst s'; exact G].
Qed.
Lemma neg_went e s sg lf rg ml hl s' r t h : nenv_ok e -> nstate_ok e s t -> 0 <= ml -> Health.health (ns_cache s) HLiqEnd = Some h ->
  perp_liq_negative e s sg lf rg ml hl = Some (s', Some r) ->
  exists h' ms fh s0, Health.health (ns_cache s') HLiqEnd = Some h' /\ nran e s (nflagged s' (ns_flag s)) t h h' ml r ms fh s0.
Proof.
  intros E O M Hh H. apply neg_inv in H as (h1 & m & zp & s1 & h' & _ & _ & Hh1 & Hz & AP & Hm & CL & HA & Hh' & Es & _).
  assert (h1 = h) as -> by congruence. pose proof (nflagged_ok e s true t O) as O'.
  destruct (neg_ran e (nflagged s true) s1 t h h' ml r zp E O' M Hz AP Hh HA Hh') as (ms & fh & s0 & R).
  exists h', ms, fh, s0. split; [subst s'; exact Hh'|]. subst s'. destruct R as [R1 R2 R3 R4 R5 R6 R7 R8 R9 R10]. constructor; try assumption.
  destruct R6 as (Q1 & Q2 & Q3 & Q4 & Q5). auto 6.
Qed.

(** ** C82 *)
(** When a liquidation may happen: the account is liquidatable, has no open orders, no perp base positions, no positive perp
    pnl, and no spot asset left to liquidate against a borrow; its mark is removed exactly when it ends above minus one unit. *)
Theorem C82_conditions e s signed liqor_flag region max_liab liqor_init s' r :
  perp_liq_negative e s signed liqor_flag region max_liab liqor_init = Some (s', Some r) ->
  signed = true /\ liqor_flag = false /\ has_phase1 (ns_cache s) = false /\ (exists zp, spot_zip (ns_cache s) = Some zp /\ has_phase2 (ns_cache s) zp = false) /\
  (exists m h h', Health.health (ns_cache s) HMaint = Some m /\ Health.health (ns_cache s) HLiqEnd = Some h /\ Health.health (ns_cache s') HLiqEnd = Some h' /\
     (ns_flag s = false /\ m < 0 \/ ns_flag s = true /\ h <= - fone) /\ (ns_flag s' = true <-> h' <= - fone)) /\
  (region = true \/ 0 <= liqor_init s').
Proof.
  intros H. apply neg_inv in H as (h & m & zp & s1 & h' & SG & LF & Hh & Hz & AP & Hm & CL & HA & Hh' & Es & HR).
  split; [exact SG|]. split; [exact LF|]. unfold after_phase2 in AP. do 4 (apply andb_prop in AP as [AP ?]). apply negb_true_iff in H, H0, H1, H2.
  split. { unfold after_phase1 in AP. unfold has_phase1. apply andb_prop in AP as [A1 A2]. apply negb_true_iff in A1, A2. rewrite A1, A2. reflexivity. }
  split. { exists zp. split; [exact Hz|]. unfold has_phase2. rewrite H, H0, H1, H2. reflexivity. }
  split; [|exact HR]. exists m, h, h'. split; [exact Hm|]. split; [exact Hh|]. split; [subst s'; exact Hh'|].
  split. { unfold check_liquidatable in CL. destruct (ns_flag s).
    - right. split; [reflexivity|]. unfold recover in CL. cbn [andb] in CL. destruct (Z.ltb_spec (- fone) h); [discriminate|lia].
    - left. split; [reflexivity|]. destruct (Z.leb_spec 0 m); [discriminate|lia]. }
  assert (F : ns_flag s1 = true).
  { unfold neg_action in HA. destruct (perp_max_settle _ _); [|discriminate]. destruct (balances _ _ _); [|discriminate]. destruct (nth_info _ _) as [[i t]|]; [|discriminate].
    match type of HA with match ?m with _ => _ end = _ => destruct m as [fh|]; [|discriminate] end. destruct (liq_negative _ _ _ _ _ _ _ _ _ _ _ _ _ _); [|discriminate].
    match type of HA with match ?m with _ => _ end = _ => destruct m as [[[[bk et] ot] hc]|]; [|discriminate] end.
    match type of HA with match ?m with _ => _ end = _ => destruct m as [[[bk2 ot2] i2]|]; [|discriminate] end.
    destruct (recompute_perp _ _ _ _ _); [|discriminate]. apply some_inj in HA. apply pair_equal_spec in HA as [<- _]. reflexivity. }
  subst s'. cbn [nflagged ns_flag]. rewrite F. unfold recover. cbn [andb]. destruct (Z.ltb_spec (- fone) h'); cbn [negb]; split; intros; try lia; try discriminate; reflexivity.
Qed.
Print Assumptions C82_conditions.

(** An account that is not liquidatable keeps everything; only its mark can be removed, by being above minus one unit. *)
Theorem C82_nothing e s signed liqor_flag region max_liab liqor_init s' :
  perp_liq_negative e s signed liqor_flag region max_liab liqor_init = Some (s', None) ->
  s' = mkNS (ns_cache s) false (ns_mk s) (ns_ee s) (ns_or s) (ns_bank s) (ns_ee_tok s) (ns_or_tok s) (ns_ins s) (ns_vault s) /\
  exists m h, Health.health (ns_cache s) HMaint = Some m /\ Health.health (ns_cache s) HLiqEnd = Some h /\
     (ns_flag s = false /\ 0 <= m \/ ns_flag s = true /\ - fone < h).
Proof.
  unfold perp_liq_negative. cbv zeta. destruct signed; cbn [guard]; [|discriminate]. destruct liqor_flag; cbn [guard negb]; [discriminate|].
  destruct (Health.health (ns_cache s) HLiqEnd) as [h|]; [|discriminate]. destruct (spot_zip _) as [zp|]; [|discriminate]. destruct (after_phase2 _ _); cbn [guard]; [|discriminate].
  destruct (Health.health (ns_cache s) HMaint) as [m|]; [|discriminate].
  destruct (check_liquidatable (ns_flag s) m h) as [l f] eqn:CL. intros H.
  assert (X : l <> Liquidatable /\ f = false /\ (ns_flag s = false /\ 0 <= m \/ ns_flag s = true /\ - fone < h) /\ s' = nflagged s f).
  { destruct l.
    - apply some_inj in H. apply pair_equal_spec in H as [<- _]. split; [discriminate|]. unfold check_liquidatable in CL. destruct (ns_flag s).
      + destruct (recover true h); discriminate.
      + destruct (Z.leb_spec 0 m); [|discriminate]. apply pair_equal_spec in CL as [_ <-]. split; [reflexivity|]. split; [left; auto|reflexivity].
    - exfalso. destruct (neg_action _ _ _ _) as [[s1 r1]|] in H; [|discriminate]. destruct (Health.health (ns_cache s1) HLiqEnd); [|discriminate].
      destruct (guard _) in H; discriminate.
    - apply some_inj in H. apply pair_equal_spec in H as [<- _]. split; [discriminate|]. unfold check_liquidatable in CL. destruct (ns_flag s).
      + unfold recover in CL. cbn [andb] in CL. destruct (Z.ltb_spec (- fone) h); cbn [negb] in CL; [|discriminate]. apply pair_equal_spec in CL as [_ <-]. split; [reflexivity|]. split; [right; auto|reflexivity].
      + destruct (0 <=? m); discriminate. }
  destruct X as (_ & -> & X & ->). split; [reflexivity|]. exists m, h. auto.
Qed.
Print Assumptions C82_nothing.

(** What is moved.  [settled]: pnl settled against the settle tokens of the liqee, [taken]: pnl that the liqor takes over for
    [paid] insurance tokens, [lost]: the loss spread over the market.
    - the liqee's negative pnl is raised by their sum, never above zero; the liqor's position gets what was settled and taken;
    - the liqor's limit bounds what it gets;
    - the insurance fund pays what it has at most, at the oracle prices with the liquidation fee, rounded up to a token;
    - a loss is spread only when the fund has nothing left for this market, by the funding indexes. *)
Theorem C82_amounts e s signed liqor_flag region max_liab liqor_init s' r t h :
  nenv_ok e -> nstate_ok e s t -> 0 <= max_liab -> Health.health (ns_cache s) HLiqEnd = Some h ->
  perp_liq_negative e s signed liqor_flag region max_liab liqor_init = Some (s', Some r) ->
  let settled := ln_settled r in let taken := ln_ins_liab r in let lost := ln_soc r in let paid := ln_ins r in
  p_base (ns_ee s) = 0 /\ after_funding (ns_mk s) (ns_ee s) < 0 /\ 0 <= settled /\ 0 <= taken /\ 0 <= lost /\
  p_quote (ns_ee s') = after_funding (ns_mk s) (ns_ee s) + settled + taken + lost /\ p_quote (ns_ee s') <= 0 /\ p_base (ns_ee s') = 0 /\
  p_quote (ns_or s') = after_funding (ns_mk s) (ns_or s) - settled - taken /\ p_base (ns_or s') = p_base (ns_or s) /\
  settled + taken <= of_int max_liab /\
  ns_vault s' = ns_vault s - paid /\ 0 <= paid <= (if ne_eligible e then ns_vault s else 0) /\
  taken * fee_price e <= of_int paid * ne_iprice e /\ of_int (paid - 1) * ne_iprice e < (taken + 1) * fee_price e /\
  (0 < lost -> paid = if ne_eligible e then ns_vault s else 0) /\
  let per_lot := if mk_open_interest (ns_mk s) =? 0 then 0 else fdiv (- lost) (of_int (mk_open_interest (ns_mk s))) in
  mk_long_funding (ns_mk s') = mk_long_funding (ns_mk s) - per_lot /\ mk_short_funding (ns_mk s') = mk_short_funding (ns_mk s) + per_lot /\
  mk_open_interest (ns_mk s') = mk_open_interest (ns_mk s).
Proof.
  intros E O M Hh H. destruct (neg_went _ _ _ _ _ _ _ _ _ _ _ E O M Hh H) as (h' & ms & fh & s0 & Hh' & R).
  destruct R as [(F1 & F2 & F3 & F4) PN RL RM RF RE RQ RN RH RS]. cbn [nflagged ns_ee ns_mk ns_or ns_vault] in RE, RQ, RN. destruct RE as (X1 & X2 & X3 & X4 & _).
  destruct E as (E1 & E2 & E3 & E4). assert (CV0 : 0 <= cover_of e s) by (destruct O; unfold cover_of; destruct (ne_eligible e); lia).
  pose proof (ln_amounts _ _ _ _ _ _ _ _ _ _ _ _ _ _ _ CV0 RL) as LF. pose proof (ln_more _ _ _ _ _ _ _ _ _ _ _ _ _ _ _ RL) as ((S1 & _) & (S2 & _) & _ & _ & _ & S3 & _).
  pose proof (C55_liq_negative _ _ _ _ _ _ _ _ _ _ _ _ _ _ _ CV0 E1 E2 M RL) as CL. cbv zeta in CL. destruct CL as (C1 & C2 & C3 & C4 & C5 & C6 & C7 & C8 & C9 & C10 & C11 & C12 & C13).
  rewrite PN in C1, C5. cbv zeta. fold (cover_of e s).
  split; [exact F1|]. split; [exact C1|]. split; [exact C2|]. split; [exact C3|]. split; [exact C4|]. split; [exact RQ|]. split; [apply RN|].
  split; [rewrite X1, S1; exact F1|]. split; [rewrite X3, (lf_liqor _ _ _ _ LF); reflexivity|]. split; [rewrite X3; exact S2|]. split; [exact C6|].
  split; [exact X4|]. split; [exact C9|]. split; [exact C10|]. split; [exact C11|]. split; [exact C12|]. rewrite X2.
  destruct (Z.leb_spec (ln_soc r) 0) as [Q|Q].
  - assert (Q0 : ln_soc r = 0) by lia. rewrite (lf_none _ _ _ _ LF Q0), Q0. change (- 0) with 0. unfold fdiv. rewrite Z.mul_0_l.
    assert (Y : (if mk_open_interest (ns_mk s) =? 0 then 0 else Z.quot 0 (of_int (mk_open_interest (ns_mk s)))) = 0).
    { destruct (_ =? 0); [reflexivity|]. destruct (of_int (mk_open_interest (ns_mk s))); reflexivity. }
    rewrite Y. do 2 (split; [lia|]). reflexivity.
  - destruct (lf_soc _ _ _ _ LF Q) as [x LS]. unfold socialize_loss in LS. destruct (0 <? - ln_soc r); [discriminate|]. apply some_inj in LS. apply pair_equal_spec in LS as [LS1 LS2].
    rewrite <- LS1. auto.
Qed.
Print Assumptions C82_amounts.

(** ** the tokens *)
Lemma native_same b b' p : b_di b' = b_di b -> b_bi b' = b_bi b -> native b' p = native b p.
Proof. intros H1 H2. unfold native. rewrite H1, H2. reflexivity. Qed.
Lemma ix_round_same b b' : b_di b' = b_di b -> b_bi b' = b_bi b -> ix_round b' = ix_round b.
Proof. intros H1 H2. unfold ix_round. rewrite H1, H2. reflexivity. Qed.
Lemma deposit_native b p x now b' p' a : index_ok b -> 0 < t_use p -> deposit b p x now = Some (b', p', a) ->
  x - 2 < native b' p' - native b p < x + ix_round b /\ moved b b' p p' /\ b_fees b' = b_fees b /\ b_dust b' = b_dust b.
Proof.
  intros OK U E. unfold deposit in E. replace (negb (in_use p)) with false in E by (unfold in_use; symmetry; apply negb_false_iff, Z.ltb_lt; exact U).
  apply deposit_spec in E as (_ & Mv & F & _ & A & A' & B1 & B2 & _); [|exact OK].
  assert (a = true) as -> by (destruct a; [reflexivity|]; destruct (A' eq_refl) as [Q _]; discriminate). rewrite (A eq_refl) in B1, B2. rewrite Z.sub_diag, Z.mul_0_l, Z.add_0_r in B1, B2.
  split; [|auto]. pose proof (native_bounds b' p') as N1. rewrite (moved_pv _ _ _ _ _ Mv) in N1. pose proof (native_bounds b p) as N2. pose proof (ix_round_bound b OK) as IR. pose proof fone_pos as FP. destruct OK as [D1 D2].
  clear - B1 B2 N1 N2 IR FP D1 D2. set (mx := Z.max _ _) in *. set (n1 := native b' p') in *. set (n2 := native b p) in *. set (ir := ix_round _) in *. clearbody mx n1 n2 ir.
  set (p1 := pv _ _) in *. set (p2 := pv _ _) in *. clearbody p1 p2. split; nia.
Qed.
Lemma withdraw_native b p x now b' p' a : index_ok b -> 0 <= b_lof b -> 0 < t_use p -> withdraw_without_fee b p x now = Some (b', p', a) ->
  - x - 2 < native b' p' - native b p < - x + ix_round b /\ moved b b' p p' /\ b_fees b' = b_fees b /\ b_dust b' = b_dust b.
Proof.
  intros OK LO U E. unfold withdraw_without_fee in E. replace (negb (in_use p)) with false in E by (unfold in_use; symmetry; apply negb_false_iff, Z.ltb_lt; exact U).
  destruct (withdraw_internal b p x false false now) as [[[b2 o1] r1]|] eqn:E3; [|discriminate].
  apply some_inj in E. do 2 (apply pair_equal_spec in E as [E ?]). subst b2 o1.
  apply withdraw_spec in E3 as (_ & Mv & _ & _ & F & WF & _ & A2 & A2' & B1 & B2 & _); [|exact OK|exact LO].
  cbn [andb] in WF. rewrite WF in *. rewrite Z.add_0_r in *.
  assert (W2 : w_active r1 = true) by (destruct (w_active r1); [reflexivity|]; destruct (A2' eq_refl) as [Q _]; discriminate). rewrite (A2 W2) in B1, B2. rewrite Z.sub_diag, Z.mul_0_l, Z.add_0_r in B1, B2.
  split; [|auto]. pose proof (native_bounds b' p') as N1. rewrite (moved_pv _ _ _ _ _ Mv) in N1. pose proof (native_bounds b p) as N2. pose proof (ix_round_bound b OK) as IR. pose proof fone_pos as FP. destruct OK as [D1 D2].
  clear - B1 B2 N1 N2 IR FP D1 D2. set (mx := Z.max _ _) in *. set (n1 := native b' p') in *. set (n2 := native b p) in *. set (ir := ix_round _) in *. clearbody mx n1 n2 ir.
  set (p1 := pv _ _) in *. set (p2 := pv _ _) in *. clearbody p1 p2. split; nia.
Qed.
Lemma neg_action_inv e s h ml s1 r : neg_action e s h ml = Some (s1, r) ->
  exists bk ot hc hc1,
    (if 0 <? ln_settled r then
       (exists b1 a1 a2, deposit (ns_bank s) (ns_or_tok s) (ln_settled r) (ne_now e) = Some (b1, ot, a1) /\
          withdraw_without_fee b1 (ns_ee_tok s) (ln_settled r) (ne_now e) = Some (bk, ns_ee_tok s1, a2)) /\
       adjust_token_balance (ns_cache s) (ne_settle e) (- ln_settled r) (ne_sw e) = Some hc
     else bk = ns_bank s /\ ns_ee_tok s1 = ns_ee_tok s /\ ot = ns_or_tok s /\ hc = ns_cache s) /\
    (if 0 <? ln_ins r then
       match ns_ins s with
       | None => exists a, deposit bk ot (of_int (ln_ins r)) (ne_now e) = Some (ns_bank s1, ns_or_tok s1, a) /\ ns_ins s1 = None
       | Some (ib, it) => exists ib' it' a, deposit ib it (of_int (ln_ins r)) (ne_now e) = Some (ib', it', a) /\ ns_ins s1 = Some (ib', it') /\
           ns_bank s1 = bk /\ ns_or_tok s1 = ot
       end
     else ns_bank s1 = bk /\ ns_or_tok s1 = ot /\ ns_ins s1 = ns_ins s) /\
    recompute_perp hc (ln_liqee r) (ln_market r) (ne_settle e) (ne_par e) = Some hc1 /\ ns_cache s1 = hc1 /\ ns_ee s1 = ln_liqee r /\ ns_mk s1 = ln_market r /\
    exists ms fh, liq_negative (ns_mk s) (ne_cfg e) (ns_ee s) (ne_le e) (ns_or s) (ne_price e) ms ml fh
      (ne_sprice e) (ne_iprice e) (bp_fee (ne_par e)) (cover_of e s) (ne_now e) = Some r.
Proof.
  unfold neg_action. intros HA. destruct (perp_max_settle _ _) as [ms|]; [|discriminate]. destruct (balances _ _ _); [|discriminate]. destruct (nth_info _ _) as [[i t]|]; [|discriminate].
  match type of HA with match ?m with _ => _ end = _ => destruct m as [fh|]; [|discriminate] end. destruct (liq_negative _ _ _ _ _ _ _ _ _ _ _ _ _ _) as [r1|] eqn:ER; [|discriminate].
  match type of HA with match ?m with _ => _ end = _ => destruct m as [[[[bk et] ot] hc]|] eqn:Em; [|discriminate] end.
  match type of HA with match ?m with _ => _ end = _ => destruct m as [[[bk2 ot2] i2]|] eqn:Ei; [|discriminate] end.
  destruct (recompute_perp _ _ _ _ _) as [hc1|] eqn:EC; [|discriminate]. apply some_inj in HA. apply pair_equal_spec in HA as [<- ->].
  exists bk, ot, hc, hc1. cbn [ns_bank ns_ee_tok ns_or_tok ns_cache ns_ee ns_mk ns_ins]. split.
  { destruct (0 <? ln_settled r).
    + destruct (deposit _ _ _ _) as [[[b1 e1] a1]|]; [|discriminate]. destruct (withdraw_without_fee _ _ _ _) as [[[b2 o1] a2]|] eqn:EW; [|discriminate].
      destruct (adjust_token_balance _ _ _ _) as [hc2|]; [|discriminate]. apply some_inj in Em. do 3 (apply pair_equal_spec in Em as [Em ?]). subst.
      split; [exists b1, a1, a2; auto|reflexivity].
    + apply some_inj in Em. do 3 (apply pair_equal_spec in Em as [Em ?]). subst. auto. }
  split.
  { destruct (0 <? ln_ins r); [destruct (ns_ins s) as [[ib it]|]|].
    - destruct (deposit ib it _ _) as [[[b1 e1] a1]|]; [|discriminate]. apply some_inj in Ei. do 2 (apply pair_equal_spec in Ei as [Ei ?]). subst. exists b1, e1, a1. auto.
    - destruct (deposit bk ot _ _) as [[[b1 e1] a1]|]; [|discriminate]. apply some_inj in Ei. do 2 (apply pair_equal_spec in Ei as [Ei ?]). subst. exists a1. auto.
    - apply some_inj in Ei. do 2 (apply pair_equal_spec in Ei as [Ei ?]). subst. auto. }
  split; [exact EC|]. split; [reflexivity|]. split; [reflexivity|]. split; [reflexivity|]. exists ms, fh. exact ER.
Qed.

(** The liqee pays what was settled in settle tokens to the liqor, and the insurance tokens are deposited for the liqor, in the
    insurance bank or, if that is the same bank, in the settle bank. *)
Theorem C82_tokens e s signed liqor_flag region max_liab liqor_init s' r :
  0 < b_di (ns_bank s) -> 0 < b_bi (ns_bank s) -> 0 <= b_lof (ns_bank s) -> 0 < t_use (ns_ee_tok s) -> 0 < t_use (ns_or_tok s) ->
  (forall ib it, ns_ins s = Some (ib, it) -> 0 < b_di ib /\ 0 < b_bi ib /\ 0 < t_use it) ->
  perp_liq_negative e s signed liqor_flag region max_liab liqor_init = Some (s', Some r) ->
  let round := ix_round (ns_bank s) in
  let ee := native (ns_bank s') (ns_ee_tok s') - native (ns_bank s) (ns_ee_tok s) in
  let or := native (ns_bank s') (ns_or_tok s') - native (ns_bank s) (ns_or_tok s) in
  let settled := ln_settled r in let paid := of_int (ln_ins r) in
  (if 0 <? settled then - settled - 2 < ee < - settled + round else ns_ee_tok s' = ns_ee_tok s) /\
  match ns_ins s with
  | None => ns_ins s' = None /\ (settled <= 0 -> ln_ins r <= 0 -> ns_bank s' = ns_bank s /\ ns_or_tok s' = ns_or_tok s) /\
      Z.max settled 0 + Z.max paid 0 - 4 < or < Z.max settled 0 + Z.max paid 0 + 2 * round
  | Some (ib, it) => (if 0 <? settled then settled - 2 < or < settled + round else ns_or_tok s' = ns_or_tok s /\ ns_bank s' = ns_bank s) /\
      exists ib' it', ns_ins s' = Some (ib', it') /\
        if 0 <? ln_ins r then paid - 2 < native ib' it' - native ib it < paid + ix_round ib else ib' = ib /\ it' = it
  end /\
  b_fees (ns_bank s') = b_fees (ns_bank s) /\ b_dust (ns_bank s') = b_dust (ns_bank s) /\ b_di (ns_bank s') = b_di (ns_bank s) /\ b_bi (ns_bank s') = b_bi (ns_bank s).
Proof.
  intros D1 D2 LO U1 U2 UI H. cbv zeta. apply neg_inv in H as (h & m & zp & s1 & h' & _ & _ & _ & _ & _ & _ & _ & HA & _ & Es & _).
  assert (OK : index_ok (ns_bank s)) by (split; assumption).
  apply neg_action_inv in HA as (bk & ot & hc & hc1 & HT & HI & _). cbn [nflagged ns_bank ns_or_tok ns_ee_tok ns_ins ns_cache] in HT, HI.
  subst s'. cbn [nflagged ns_bank ns_or_tok ns_ee_tok ns_ins].
  pose proof fone_pos as FP. pose proof (ix_round_bound (ns_bank s) OK) as IR. assert (IR0 : 0 < ix_round (ns_bank s)) by (clear - IR FP D1 D2; nia).
  (* the settle transfer *)
  assert (T : (if 0 <? ln_settled r then - ln_settled r - 2 < native bk (ns_ee_tok s1) - native (ns_bank s) (ns_ee_tok s) < - ln_settled r + ix_round (ns_bank s) /\
       ln_settled r - 2 < native bk ot - native (ns_bank s) (ns_or_tok s) < ln_settled r + ix_round (ns_bank s)
     else bk = ns_bank s /\ ns_ee_tok s1 = ns_ee_tok s /\ ot = ns_or_tok s) /\ index_ok bk /\ t_use ot = t_use (ns_or_tok s) /\
     b_fees bk = b_fees (ns_bank s) /\ b_dust bk = b_dust (ns_bank s) /\ b_di bk = b_di (ns_bank s) /\ b_bi bk = b_bi (ns_bank s)).
  { destruct (0 <? ln_settled r); [|destruct HT as (-> & -> & -> & _); auto 10].
    destruct HT as [(b1 & a1 & a2 & X1 & X2) _]. apply deposit_native in X1 as (N1 & M1 & F1 & G1); [|assumption..].
    assert (OK1 : index_ok b1) by (split; rewrite ?(mv_di _ _ _ _ M1), ?(mv_bi _ _ _ _ M1); assumption).
    apply withdraw_native in X2 as (N2 & M2 & F2 & G2); [|exact OK1|rewrite (mv_lof _ _ _ _ M1); exact LO|exact U1].
    pose proof (mv_di _ _ _ _ M1) as I1. pose proof (mv_bi _ _ _ _ M1) as I2. pose proof (mv_di _ _ _ _ M2) as I3. pose proof (mv_bi _ _ _ _ M2) as I4.
    rewrite (ix_round_same _ _ I1 I2), (native_same _ _ (ns_ee_tok s) I1 I2) in N2. split.
    - split; [exact N2|]. rewrite (native_same _ _ _ I3 I4). exact N1.
    - split; [split; rewrite ?I3, ?I4, ?I1, ?I2; assumption|]. split; [exact (mv_use _ _ _ _ M1)|]. do 3 (split; [congruence|]). congruence. }
  clear HT. destruct T as (T1 & OKb & TU & TF & TD & TI1 & TI2).
  destruct (ns_ins s) as [[ib it]|] eqn:EI.
  - destruct (UI _ _ eq_refl) as (V1 & V2 & V3).
    assert (X : ns_bank s1 = bk /\ ns_or_tok s1 = ot /\ exists ib' it', ns_ins s1 = Some (ib', it') /\
        if 0 <? ln_ins r then of_int (ln_ins r) - 2 < native ib' it' - native ib it < of_int (ln_ins r) + ix_round ib else ib' = ib /\ it' = it).
    { destruct (0 <? ln_ins r).
      - destruct HI as (ib' & it' & a & X1 & X2 & X3 & X4). split; [exact X3|]. split; [exact X4|]. exists ib', it'. split; [exact X2|]. apply deposit_native in X1 as (N & _); [exact N|split; assumption|exact V3].
      - destruct HI as (X1 & X2 & X3). split; [exact X1|]. split; [exact X2|]. exists ib, it. auto. }
    destruct X as (-> & -> & X). split; [|split; [split; [|exact X]|auto]].
    + destruct (0 <? ln_settled r); [apply T1|apply T1].
    + destruct (0 <? ln_settled r); [apply T1|]. destruct T1 as (-> & _ & ->). auto.
  - assert (X : ns_ins s1 = None /\ (ln_ins r <= 0 -> ns_bank s1 = bk /\ ns_or_tok s1 = ot) /\
      Z.max (of_int (ln_ins r)) 0 - 2 < native (ns_bank s1) (ns_or_tok s1) - native bk ot < Z.max (of_int (ln_ins r)) 0 + ix_round (ns_bank s) /\
      b_fees (ns_bank s1) = b_fees bk /\ b_dust (ns_bank s1) = b_dust bk /\ b_di (ns_bank s1) = b_di bk /\ b_bi (ns_bank s1) = b_bi bk).
    { assert (O : forall n, of_int n = n * fone) by reflexivity. destruct (Z.ltb_spec 0 (ln_ins r)) as [Q|Q].
      - destruct HI as (a & X1 & X2). split; [exact X2|]. split; [lia|]. apply deposit_native in X1 as (N & Mv & F & G); [|exact OKb|rewrite TU; exact U2].
        rewrite (ix_round_same _ _ TI1 TI2) in N. rewrite Z.max_l by (rewrite O; nia). split; [exact N|]. split; [exact F|]. split; [exact G|]. split; [apply (mv_di _ _ _ _ Mv)|apply (mv_bi _ _ _ _ Mv)].
      - destruct HI as (X1 & X2 & X3). rewrite X1, X2, X3. split; [reflexivity|]. split; [auto|]. rewrite Z.max_r by (rewrite O; nia). split; [lia|auto]. }
    destruct X as (X1 & X2 & X3 & X4 & X5 & X6 & X7).
    split; [|split; [split; [exact X1|split]|rewrite X4, X5, X6, X7; auto]].
    + destruct (0 <? ln_settled r); [|apply T1]. rewrite (native_same _ _ _ X6 X7). apply T1.
    + intros Q1 Q2. destruct (Z.ltb_spec 0 (ln_settled r)); [lia|]. destruct T1 as (<- & _ & <-). exact (X2 Q2).
    + destruct (Z.ltb_spec 0 (ln_settled r)).
      * rewrite Z.max_l by lia. destruct T1 as [_ T1]. clear - T1 X3 IR0. lia.
      * rewrite Z.max_r by lia. destruct T1 as (-> & _ & ->). clear - X3 IR0. lia.
Qed.
Print Assumptions C82_tokens.

(** The health that is checked afterwards is that of the new state: the cache shows the new perp position, the settle token
    balance less what was settled, and everything else as it was. *)
Theorem C82_shown e s signed liqor_flag region max_liab liqor_init s' r t :
  nstate_ok e s t -> perp_liq_negative e s signed liqor_flag region max_liab liqor_init = Some (s', Some r) ->
  let P := hc_perps (ns_cache s) in let P' := hc_perps (ns_cache s') in
  let T := hc_tokens (ns_cache s) in let T' := hc_tokens (ns_cache s') in
  (exists i pr, perp_pos P' (mk_index (ns_mk s')) = Some i /\
     nth_error P' i = Some (new_pinfo (ns_ee s') (ns_mk s') (ne_settle e) (bp_init_aw (ne_par e)) (bp_init_lw (ne_par e))
       (bp_maint_ov (ne_par e)) (bp_init_ov (ne_par e)) pr) /\ option_map pi_prices (nth_error P i) = Some pr /\ forall j, j <> i -> nth_error P' j = nth_error P j) /\
  (exists k, token_pos T (ne_settle e) = Some k /\ map ti_spot T' = add_at (map ti_spot T) k (- Z.max (ln_settled r) 0)) /\
  map ti_index T' = map ti_index T /\ map ti_prices T' = map ti_prices T /\ map ti_init_aw T' = map ti_init_aw T /\ map ti_init_lw T' = map ti_init_lw T /\
  map ti_maint_aw T' = map ti_maint_aw T /\ map ti_maint_lw T' = map ti_maint_lw T /\ hc_serum (ns_cache s') = hc_serum (ns_cache s).
Proof.
  intros [_ [k Ok] _ (ip & pr & Op1 & Op2) _ _] H. cbv zeta. apply neg_inv in H as (h & m & zp & s1 & h' & _ & _ & _ & _ & _ & _ & _ & HA & _ & Es & _).
  apply neg_action_inv in HA as (bk & ot & hc & hc1 & HT & _ & HR & E1 & E2 & E3 & ms & fh & HL). subst s'.
  cbn [nflagged ns_cache ns_ee ns_mk] in *. rewrite E1.
  pose proof (ln_more _ _ _ _ _ _ _ _ _ _ _ _ _ _ _ HL) as (_ & _ & M7 & _). cbn [nflagged ns_mk] in M7. rewrite <- E3 in M7.
  assert (X : hc_perps hc = hc_perps (ns_cache s) /\ hc_serum hc = hc_serum (ns_cache s) /\
    (exists k, token_pos (hc_tokens (ns_cache s)) (ne_settle e) = Some k /\
     map ti_spot (hc_tokens hc) = add_at (map ti_spot (hc_tokens (ns_cache s))) k (- Z.max (ln_settled r) 0)) /\
     map ti_index (hc_tokens hc) = map ti_index (hc_tokens (ns_cache s)) /\ map ti_prices (hc_tokens hc) = map ti_prices (hc_tokens (ns_cache s)) /\
     map ti_init_aw (hc_tokens hc) = map ti_init_aw (hc_tokens (ns_cache s)) /\ map ti_init_lw (hc_tokens hc) = map ti_init_lw (hc_tokens (ns_cache s)) /\
     map ti_maint_aw (hc_tokens hc) = map ti_maint_aw (hc_tokens (ns_cache s)) /\ map ti_maint_lw (hc_tokens hc) = map ti_maint_lw (hc_tokens (ns_cache s))).
  { unfold nth_info in Ok. destruct (token_pos (hc_tokens (ns_cache s)) (ne_settle e)) as [k'|] eqn:Ek; [|discriminate].
    destruct (Z.ltb_spec 0 (ln_settled r)).
    - destruct HT as [_ HT]. unfold adjust_token_balance in HT. rewrite Ek in HT. apply some_inj in HT. subst hc. cbn [hc_perps hc_serum hc_tokens].
      split; [reflexivity|]. split; [reflexivity|]. split; [exists k'; split; [reflexivity|rewrite Z.max_l by lia; apply spot_update']|].
      rewrite !update_nth_map by (intros []; reflexivity). auto 8.
    - destruct HT as (_ & _ & _ & ->). split; [reflexivity|]. split; [reflexivity|]. split; [|auto 8]. exists k'. split; [reflexivity|].
      rewrite Z.max_r by lia. change (- 0) with 0. rewrite add_at_zero. reflexivity. }
  destruct X as (X1 & X2 & X3 & X4 & X5 & X6 & X7 & X8 & X9).
  rewrite <- E2, <- E3 in HR. unfold recompute_perp in HR. rewrite X1, M7, Op1 in HR. apply some_inj in HR. subst hc1. cbn [hc_tokens hc_serum hc_perps]. rewrite X2 in *. rewrite M7.
  split; [|tauto]. exists ip, pr.
  split; [apply perp_pos_update; [exact Op1|intros pi; cbn [new_pinfo pi_market]; exact M7]|].
  split; [rewrite update_nth_nth, Nat.eqb_refl, Op2; reflexivity|]. split; [rewrite Op2; reflexivity|]. intros j Hj. rewrite update_nth_nth. destruct (Nat.eqb_spec ip j); [congruence|reflexivity].
Qed.
Print Assumptions C82_shown.

(** ** C83 *)
Lemma liqend_w e s t : nenv_ok e -> nstate_ok e s t -> 0 <= asset_wp t HLiqEnd <= liab_wp t HLiqEnd.
Proof.
  intros (E1 & E2 & E3 & E4) [_ _ (W1 & W2 & W3) _ _ _]. unfold asset_wp, liab_wp. cbn [asset_weight liab_weight asset_price liab_price]. rewrite W1, W2, W3.
  split; [apply fmul_nonneg; lia|apply fmul_mono_l; lia].
Qed.
(** The health of the liqee is unchanged by settlement; taking over and spreading its loss raises it, but not above two of the
    smallest units. *)
Theorem C83_health e s signed liqor_flag region max_liab liqor_init s' r t h :
  nenv_ok e -> nstate_ok e s t -> 0 <= max_liab -> Health.health (ns_cache s) HLiqEnd = Some h ->
  perp_liq_negative e s signed liqor_flag region max_liab liqor_init = Some (s', Some r) ->
  exists h', Health.health (ns_cache s') HLiqEnd = Some h' /\ h <= h' /\ (h' = h \/ h < 0 /\ h' <= 1) /\
    (ln_ins_liab r + ln_soc r = 0 -> h' = h).
Proof.
  intros E O M Hh H. destruct (neg_went _ _ _ _ _ _ _ _ _ _ _ E O M Hh H) as (h' & ms & fh & s0 & Hh' & R).
  exists h'. split; [exact Hh'|]. pose proof (liqend_w _ _ _ E O) as W. destruct R as [_ _ RL _ RF _ _ _ RH _].
  assert (CV0 : 0 <= cover_of e s) by (destruct O; unfold cover_of; destruct (ne_eligible e); lia). destruct E as (E1 & E2 & E3 & E4).
  pose proof (C55_liq_negative _ _ _ _ _ _ _ _ _ _ _ _ _ _ _ CV0 E1 E2 M RL) as CL. cbv zeta in CL. destruct CL as (_ & _ & C3 & C4 & _ & _ & _ & C8 & _).
  set (x := ln_ins_liab r + ln_soc r) in *. assert (Hx : 0 <= x) by (unfold x; lia).
  split; [pose proof (C_mono t W s0 (s0 + x) ltac:(lia)); lia|].
  assert (Z0 : x = 0 -> h' = h) by (intros ->; rewrite Z.add_0_r in RH; lia). split; [|exact Z0].
  destruct (bankruptcy_reached _ _ _ _ _ _ _ _); [|subst fh; left; apply Z0; lia].
  destruct (Z.ltb_spec h 0) as [N|N].
  - right. split; [exact N|]. pose proof (need_facts t W _ _ _ RF) as (F0 & _). pose proof (over t W h s0 (s0 + x) fh 0 N RF ltac:(lia) ltac:(lia)) as V. rewrite <- RH, Z.mul_0_l, Z.add_0_r in V. pose proof fone_pos. nia.
  - left. apply Z0. pose proof (need_facts t W _ _ _ RF) as (_ & F0 & _). specialize (F0 N). lia.
Qed.
Print Assumptions C83_health.

(** Only what the spot balances and the positive perp positions of the liqee can pay, in maint health, is settled: nothing if that
    health is not positive, else it stays above minus two of the smallest units. *)
Theorem C83_backed e s signed liqor_flag region max_liab liqor_init s' r t h g g' :
  nenv_ok e -> nstate_ok e s t -> 0 <= max_liab -> Health.health (ns_cache s) HLiqEnd = Some h ->
  perp_liq_negative e s signed liqor_flag region max_liab liqor_init = Some (s', Some r) ->
  settle_health (ns_cache s) = Some g -> settle_health (ns_cache s') = Some g' ->
  (g <= 0 -> ln_settled r = 0 /\ g' = g) /\ (0 < g -> -1 <= g' <= g).
Proof.
  intros E O M Hh H Hg Hg'. destruct (neg_went _ _ _ _ _ _ _ _ _ _ _ E O M Hh H) as (h' & ms & fh & s0 & Hh' & R).
  destruct R as [_ _ RL _ _ _ _ _ _ RS]. destruct (RS g g' Hg Hg') as (x & T & Eg). clear RS.
  assert (CV0 : 0 <= cover_of e s) by (destruct O; unfold cover_of; destruct (ne_eligible e); lia). destruct E as (E1 & E2 & E3 & E4).
  pose proof (C55_liq_negative _ _ _ _ _ _ _ _ _ _ _ _ _ _ _ CV0 E1 E2 M RL) as CL. cbv zeta in CL. destruct CL as (_ & C2 & _ & _ & _ & _ & C7 & _).
  destruct O as [_ _ (W1 & W2 & W3) _ [Mt1 Mt2] _].
  assert (WA : 0 <= asset_wp t HMaint /\ 0 <= liab_wp t HMaint).
  { unfold asset_wp, liab_wp. cbn [asset_weight liab_weight asset_price liab_price]. rewrite W3. split; apply fmul_nonneg; assumption. }
  destruct (C42_taken _ _ _ _ _ (proj1 WA) T) as [T1 T2]. split.
  - intros Q. specialize (T1 Q). assert (S0 : ln_settled r = 0) by lia. split; [exact S0|]. rewrite S0, Z.sub_0_r in Eg. lia.
  - intros Q. destruct (T2 Q) as [T3 T4]. pose proof (contribution_worth t HMaint x) as B1. pose proof (contribution_worth t HMaint (x - ln_settled r)) as B2.
    assert (MN : worth (asset_wp t HMaint) (liab_wp t HMaint) (x - ms) <= worth (asset_wp t HMaint) (liab_wp t HMaint) (x - ln_settled r) <= worth (asset_wp t HMaint) (liab_wp t HMaint) x).
    { assert (L : x - ms <= x - ln_settled r <= x) by lia. clear - WA L. revert L. generalize (x - ms) (x - ln_settled r). intros a b L.
      unfold worth. destruct (Z.ltb_spec a 0), (Z.ltb_spec b 0), (Z.ltb_spec x 0); nia. }
    pose proof fone_pos as FP. clear - T4 B1 B2 MN Eg FP.
    set (w := worth _ _ x) in *. set (w1 := worth _ _ (x - ms)) in *. set (w2 := worth _ _ (x - ln_settled r)) in *. set (c1 := contribution _ _ x) in *. set (c2 := contribution _ _ _) in *.
    clearbody w w1 w2 c1 c2. split; nia.
Qed.
Print Assumptions C83_backed.

(** If the liqor offers to take over all of the negative pnl, then none of it is left but rounding, or the health of the liqee has
    come up to zero but rounding.  [round]: the rounding of prices, one token of 2^-48 and the price of an insurance token in settle
    tokens. *)
Theorem C83_enough e s signed liqor_flag region max_liab liqor_init s' r t h :
  nenv_ok e -> nstate_ok e s t -> 0 <= max_liab -> Health.health (ns_cache s) HLiqEnd = Some h ->
  perp_liq_negative e s signed liqor_flag region max_liab liqor_init = Some (s', Some r) ->
  - after_funding (ns_mk s) (ns_ee s) <= of_int max_liab ->
  let round := (fone + ne_iprice e) / fee_price e + 1 in
  - round <= p_quote (ns_ee s') \/
  exists h', Health.health (ns_cache s') HLiqEnd = Some h' /\
    - (2 * fone + settle_price t + round * settle_price t) < h' * fone.
Proof.
  intros E O M Hh H ML. cbv zeta. destruct (neg_went _ _ _ _ _ _ _ _ _ _ _ E O M Hh H) as (h' & ms & fh & s0 & Hh' & R).
  pose proof (liqend_w _ _ _ E O) as W. destruct R as [_ PN RL _ RF RE RQ _ RH _].
  assert (CV0 : 0 <= cover_of e s) by (destruct O; unfold cover_of; destruct (ne_eligible e); lia). destruct E as (E1 & E2 & E3 & E4).
  pose proof (C55_liq_negative _ _ _ _ _ _ _ _ _ _ _ _ _ _ _ CV0 E1 E2 M RL) as CL. cbv zeta in CL. destruct CL as (_ & C2 & C3 & C4 & C5 & _).
  destruct (ln_complete _ _ _ _ _ _ _ _ _ _ _ _ _ _ _ CV0 E1 E2 ltac:(rewrite PN; exact ML) RL) as (L1 & L2 & L3). rewrite PN in *. fold (neg_round (fee_price e) (ne_iprice e)).
  change (fmul (ne_sprice e) (fone + bp_fee (ne_par e))) with (fee_price e) in L3. set (k := neg_round _ _) in *.
  assert (K : 1 <= k). { unfold k, neg_round. assert (0 <= (fone + ne_iprice e) / fee_price e) by (apply Z.div_pos; [pose proof fone_pos; lia|exact E2]). lia. }
  cbn [nflagged ns_ee] in RQ. set (x := ln_ins_liab r + ln_soc r) in *.
  destruct (Z.leb_spec (- k) (p_quote (ns_ee s'))) as [Q|Q]; [left; exact Q|right]. exists h'. split; [exact Hh'|].
  assert (P : 0 < - after_funding (ns_mk s) (ns_ee s) - ln_settled r) by (unfold x in *; lia). rewrite (L2 P) in RF.
  assert (F : fh <= x + k) by (unfold x in *; lia).
  change (settle_price t) with (liab_wp t HLiqEnd). pose proof fone_pos as FP. assert (KW : 0 <= k * liab_wp t HLiqEnd) by nia.
  destruct (Z.ltb_spec h 0) as [N|N].
  - pose proof (under t W h s0 (s0 + x) fh k N RF ltac:(lia) ltac:(lia)) as U. rewrite <- RH in U. lia.
  - pose proof (C_mono t W s0 (s0 + x) ltac:(unfold x; lia)). nia.
Qed.
Print Assumptions C83_enough.

(** ** concrete cases *)
(** the settle token at price 2 with weights 0.9 and 1.1, the insurance token at price 3, no fee, no settle limit; [debt]: another
    token, at price 1 *)
Definition ex_npar : bpar := mkBP (pct 80) (pct 120) 0 0 0 0 0.
Definition ex_ncfg : scfg := mkSC (-1) 0 0 3600 fone 0 0 0.
Definition ex_nenv (limit : bool) (eligible : bool) : nenv :=
  mkNE ex_npar (if limit then ex_lc else ex_ncfg) 0 lim0 fone (of_int 2) (of_int 3) (pct 90) (pct 110) eligible 50 (pct 90, pct 110).
Definition ex_nst (flag : bool) (settle perp debt vault : Z) : nstate :=
  let p := mkPos 0 (of_int perp) 0 0 0 0 0 0 0 in
  let et := ex_btok settle in let ot := ex_btok 500 in let b := ex_lbank et ot in
  let dt := ex_btok debt in let db := ex_lbank dt ot in
  let it := mkTpos 0 1 in
  mkNS (mkHC [ex_info 0 90 90 110 110 (of_int 2) b et; ex_info 1 100 100 100 100 fone db dt] []
    [new_pinfo p ex_bmk 0 (pct 80) (pct 120) 0 0 (mkPr fone fone)]) flag ex_bmk p (mkPos 5 0 0 0 0 0 0 0 0) b et ot (Some (ex_lbank it it, it)) vault.
Definition ex_ntinfo (s : nstate) : tinfo := ex_info 0 90 90 110 110 (of_int 2) (ns_bank s) (ns_ee_tok s).
Ltac neok := unfold nenv_ok; split; [zc|]; split; [zc|]; split; [zc|]; split; zc.
Ltac nsok := constructor;
  [constructor|exists 0%nat; reflexivity|split; [reflexivity|split; reflexivity]|exists 0%nat, (mkPr fone fone); split; reflexivity|split; zc|zc].
(** what a call shows: settled, paid insurance tokens, pnl taken over for them, loss spread; quote of liqee and liqor, settle tokens of
    liqee and liqor, insurance tokens of the liqor, vault; health afterwards, settle health afterwards, mark *)
Definition ex_nshow (o : option (nstate * option liqneg)) :=
  match o with
  | Some (s', Some r) =>
      Some ((to_int (ln_settled r), ln_ins r, to_int (ln_ins_liab r), to_int (ln_soc r)),
        (to_int (p_quote (ns_ee s')), to_int (p_quote (ns_or s')), to_int (native (ns_bank s') (ns_ee_tok s')), to_int (native (ns_bank s') (ns_or_tok s'))),
        (option_map (fun x => to_int (native (fst x) (snd x))) (ns_ins s'), ns_vault s'),
        (option_map to_int (Health.health (ns_cache s') HLiqEnd), option_map to_int (settle_health (ns_cache s')), ns_flag s'))
  | _ => None
  end.
Definition ex_nrun (e : nenv) (s : nstate) (max_liab : Z) := ex_nshow (perp_liq_negative e s true false false max_liab (fun _ => 0)).

(** The hypotheses of C82_amounts, C82_shown and C83 hold, and all three steps happen: of the debt of 50, 19 are settled, the liqor
    takes over 9 for the last 6 insurance tokens, a loss of 21 is spread.  An account with positive health is left alone. *)
Example C82_example :
  let e := ex_nenv false true in let s := ex_nst false 40 (-50) (-36) 6 in
  nenv_ok e /\ nstate_ok e s (ex_ntinfo s) /\ option_map to_int (Health.health (ns_cache s) HLiqEnd) = Some (-59) /\
  ex_nrun e s 40 = Some ((19, 6, 9, 21), (-1, -29, 20, 519), (Some 6, 0), (Some (-1), Some 0, false)) /\
  match perp_liq_negative e (ex_nst false 400 (-50) 0 6) true false false 40 (fun _ => 0) with Some (s', None) => ns_flag s' = false | _ => False end.
Proof.
  cbv zeta. split; [neok|]. split; [nsok|]. split; [vm_compute; reflexivity|]. split; [vm_compute; reflexivity|]. vm_compute. reflexivity.
Qed.

(** The liqor offers 29 of 50 and the insurance fund is large: no loss, and the account stays marked.  With a settle limit of zero nothing
    is settled although there is settle health; the liqor takes over 30 and the health comes up to zero but rounding (with [max_liab] of
    100: the hypothesis of C83_enough).  A market without insurance: the loss is spread at once. *)
Example C83_example :
  ex_nrun (ex_nenv false true) (ex_nst false 40 (-50) (-36) 100) 29 = Some ((19, 7, 9, 0), (-21, -29, 20, 519), (Some 7, 93), (Some (-39), Some 0, true)) /\
  (let e := ex_nenv true true in let s := ex_nst true 40 (-50) (-36) 100 in
   nenv_ok e /\ nstate_ok e s (ex_ntinfo s) /\ (- after_funding (ns_mk s) (ns_ee s) <=? of_int 100) = true /\
   option_map to_int (settle_health (ns_cache s)) = Some 35 /\
   ex_nrun e s 100 = Some ((0, 21, 30, 0), (-20, -31, 39, 499), (Some 21, 79), (Some (-1), Some 35, false))) /\
  ex_nrun (ex_nenv false false) (ex_nst true 5 (-20) 30 6) 100 = Some ((18, 0, 0, 1), (-1, -19, -14, 518), (Some 0, 6), (Some (-1), Some 0, false)).
Proof.
  split; [vm_compute; reflexivity|]. split; [cbv zeta; split; [neok|]; split; [nsok|]; split; [vm_compute; reflexivity|]; split; vm_compute; reflexivity|].
  vm_compute. reflexivity.
Qed.
