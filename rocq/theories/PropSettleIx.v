(** C87: settling pnl between two accounts, the instruction as a whole. *)
From Coq Require Import List ZArith Lia Bool Arith.
From Verif Require Import OrderTree Keys PerpTypes SettleLimit SettleSpec SettleFacts PropSettle Interest InterestFacts Bank BankSpec BankFacts BankInv BankResults Health HealthSpec HealthDiv HealthFacts HealthMore HealthSkip LiqState
  TokenLiq TokenLiqSpec TokenLiqFacts SerumCache PerpLiqBase PerpLiqBaseSpec PerpLiqBaseFacts PerpLiqBaseIx PerpLiqNegSpec PerpLiqNegFacts PropPerpLiqNeg Scaling ScalingFacts TokenMove TokenMoveFacts PropTokenMove
  PropInterest PropBank PropHealth PropTokenLiq PropPerpLiqBase SettleIx SettleIxFacts Fixed.
Import ListNotations.
Open Scope Z_scope.

(** no token and no perp market twice; the settle token position is in use (it is as long as there is a perp position) *)
Definition settle_acct_ok (x : sacct) : Prop := NoDup (pos_ids (sa_L x)) /\ NoDup (map pi_market (sa_P x)) /\ 0 < t_use (sa_tok x).
Definition settle_bank_ok (b : bank) : Prop := 0 < b_di b /\ 0 < b_bi b /\ 0 <= b_lof b.
(** health uses the oracle price of the market, and weights that are at most 1 for assets and at least 1 for liabilities *)
Definition market_shown (e : senv) (x : sacct) : Prop :=
  forall pi, In pi (sa_P x) -> pi_market pi = mk_index (xe_mk e) -> pr_oracle (pi_prices pi) = xe_price e /\ perp_haircut (perp_info e (sa_perp x) (pi_prices pi)).
(** all fills of the position were processed *)
Definition no_fills (p : position) : Prop := p_taker_base p = 0 /\ p_taker_quote p = 0.
(** the higher one of the weighted prices of a token *)
Definition top_price (t : tinfo) (ty : htype) : fx := Z.max (asset_wp t ty) (liab_wp t ty).

(** ** amounts *)
(** The settler must sign.  A positive amount leaves A's profitable position and enters B's losing one, after funding: not more than
    A's profit, B's loss, and what the spot balances of B can pay; the fee is a part of it.  Nothing else of the accounts changes but
    their settle token balances and settle limits. *)
Theorem C87_amounts : forall e b a c w signed o, perp_settle_pnl e b a c w signed = Some o ->
  let s := so_amount o in let fee := so_fee o in
  signed = true /\ 0 < s /\ s <= pnl_at (xe_mk e) (sa_perp a) (xe_price e) /\ s <= - pnl_at (xe_mk e) (sa_perp c) (xe_price e) /\ 0 <= fee <= s /\
  p_quote (sa_perp (so_a o)) = p_quote (sa_perp a) - unsettled_funding (sa_perp a) (xe_mk e) - s /\
  p_quote (sa_perp (so_b o)) = p_quote (sa_perp c) - unsettled_funding (sa_perp c) (xe_mk e) + s /\
  same_pos (sa_perp a) (sa_perp (so_a o)) /\ same_pos (sa_perp c) (sa_perp (so_b o)) /\
  (exists hc bmax, acct_cache e b c = Some hc /\ perp_max_settle hc (wc_index (xe_cfg e)) = Some bmax /\ s <= bmax) /\
  (sa_L (so_a o), sa_O (so_a o), sa_P (so_a o)) = (sa_L a, sa_O a, sa_P a) /\ (sa_L (so_b o), sa_O (so_b o), sa_P (so_b o)) = (sa_L c, sa_O c, sa_P c).
Proof.
  intros e b a c w signed o H. apply settle_inv in H as (SG & hc & ha & bmax & he & hm & r & W). cbv zeta. destruct W as [_ HC BM _ _ _ R [-> ->] EA EB _].
  pose proof (C20_settle_pnl _ _ _ _ _ _ _ _ _ _ _ _ _ R) as (S1 & S2 & S3 & S4 & S5 & S6 & _ & _ & S7 & _). destruct (settled_positions _ _ _ _ _ _ _ _ _ _ _ _ _ R) as [[y1 Y1] [y2 Y2]].
  rewrite EA, EB. cbn [with_settled sa_perp sa_L sa_O sa_P]. split; [exact SG|]. split; [exact S1|]. split; [exact S2|]. split; [exact S3|]. split; [exact S7|]. split; [exact S5|]. split; [exact S6|].
  split; [rewrite Y1; unfold same_pos; auto 6|]. split; [rewrite Y2; unfold same_pos; auto 6|]. split; [exists hc, bmax; auto|]. split; reflexivity.
Qed.
Print Assumptions C87_amounts.

(** Settle tokens: A gets the amount less the fee, B pays the amount, the settler gets the fee, up to rounding; the totals of the bank
    change as the positions do, and no loan fee is charged.  [n]: rounding of an index conversion. *)
Theorem C87_tokens : forall e b a c w signed o, perp_settle_pnl e b a c w signed = Some o ->
  settle_bank_ok b -> 0 < t_use (sa_tok a) -> 0 < t_use (sa_tok c) -> other_ok w ->
  let s := so_amount o in let fee := so_fee o in let n := ix_round b in
  let da := native (so_bank o) (sa_tok (so_a o)) - native b (sa_tok a) in let dc := native (so_bank o) (sa_tok (so_b o)) - native b (sa_tok c) in
  s - fee + fee_to_a w fee - 4 < da < s - fee + fee_to_a w fee + 2 * n /\ fee_to_b w fee - s - 4 < dc < fee_to_b w fee - s + 2 * n /\
  (forall p, w = SettlerOther p -> exists p', so_other o = Some p' /\ fee - 2 < native (so_bank o) p' - native b p < fee + n) /\ so_closed o = false /\
  b_fees (so_bank o) = b_fees b /\ b_dust (so_bank o) = b_dust b /\ b_di (so_bank o) = b_di b /\ b_bi (so_bank o) = b_bi b /\
  let change f := f (t_ix (sa_tok (so_a o))) - f (t_ix (sa_tok a)) + (f (t_ix (sa_tok (so_b o))) - f (t_ix (sa_tok c))) +
    match w, so_other o with SettlerOther p, Some p' => f (t_ix p') - f (t_ix p) | _, _ => 0 end in
  b_dep (so_bank o) - b_dep b = change (fun x => Z.max x 0) /\ b_bor (so_bank o) - b_bor b = change (fun x => Z.max (- x) 0).
Proof.
  intros e b a c w signed o H (D & B & LO) UA UC OO. apply settle_inv in H as (_ & hc & ha & bmax & he & hm & r & W).
  exact (proj2 (token_moves _ _ _ _ _ _ _ _ _ _ _ _ (conj D B) LO UA UC OO W)).
Qed.
Print Assumptions C87_tokens.

(** ** health *)
Lemma worth_step aw lw x d : 0 <= aw -> 0 <= lw -> 0 <= d -> 0 <= worth aw lw (x + d) - worth aw lw x <= d * Z.max aw lw.
Proof.
  intros A L D. unfold worth. set (m := Z.max aw lw). assert (M : aw <= m /\ lw <= m) by (unfold m; lia). clearbody m.
  destruct (Z.ltb_spec (x + d) 0), (Z.ltb_spec x 0); nia.
Qed.
Lemma contribution_step t ty x d k j : token_ok t -> 0 <= k -> 0 <= j -> - k <= d <= j ->
  - (k * top_price t ty + fone) < (contribution t ty (x + d) - contribution t ty x) * fone < j * top_price t ty + fone.
Proof.
  intros T K J D. pose proof (asset_wp_le t ty ty (stricter_refl ty) T) as [A _]. pose proof (liab_wp_le t ty ty (stricter_refl ty) T) as [L _].
  pose proof (contribution_worth t ty x) as C1. pose proof (contribution_worth t ty (x + d)) as C2. unfold top_price. set (m := Z.max (asset_wp t ty) (liab_wp t ty)).
  assert (M0 : 0 <= m) by (unfold m; lia).
  assert (X : - (k * m) <= worth (asset_wp t ty) (liab_wp t ty) (x + d) - worth (asset_wp t ty) (liab_wp t ty) x <= j * m).
  { destruct (Z.leb_spec 0 d) as [Q|Q].
    - pose proof (worth_step _ _ x d A L Q) as S. fold m in S. nia.
    - pose proof (worth_step _ _ (x + d) (- d) A L ltac:(lia)) as S. replace (x + d + - d) with x in S by lia. fold m in S. nia. }
  clear - C1 C2 X. set (w1 := worth _ _ x) in *. set (w2 := worth _ _ _) in *. set (c1 := contribution t ty x) in *. set (c2 := contribution _ _ _) in *. clearbody w1 w2 c1 c2. lia.
Qed.
Lemma has_in e x : has_positions e x = true -> In (wc_index (xe_cfg e)) (pos_ids (sa_L x)) /\ In (mk_index (xe_mk e)) (map pi_market (sa_P x)).
Proof.
  unfold has_positions. intros H. apply andb_prop in H as [H1 H2]. apply existsb_exists in H1 as (q & I & Q), H2 as (pi & J & R). apply Z.eqb_eq in Q, R. rewrite <- Q, <- R.
  split; [unfold pos_ids; exact (in_map (fun q => ti_index (pin_info q)) _ _ I)|exact (in_map _ _ _ J)].
Qed.
Lemma haircut_settled e p x y pr : perp_haircut (perp_info e p pr) -> perp_haircut (perp_info e (add_quote (settle_funding p (xe_mk e)) x y) pr).
Proof. intros H. exact H. Qed.
Lemma loser_hupnl e p s y pr ty ign : perp_haircut (perp_info e p pr) -> no_fills p -> pr_oracle pr = xe_price e -> 0 <= s -> s <= - pnl_at (xe_mk e) p (xe_price e) ->
  hupnl (perp_info e p pr) ty <= 0 /\ hupnl (perp_info e (add_quote (settle_funding p (xe_mk e)) s y) pr) ty <= 0 /\
  counted ign ty (perp_info e (add_quote (settle_funding p (xe_mk e)) s y) pr) - counted ign ty (perp_info e p pr) = if ign then 0 else s.
Proof.
  intros H [F1 F2] O S0 S. pose proof (uhupnl_le_pnl _ ty H) as U. cbn [perp_info new_pinfo pi_quote pi_base pi_lot pi_prices] in U. rewrite F1, F2, O in U.
  replace (of_int (0 * mk_qls (xe_mk e))) with 0 in U by reflexivity. rewrite !Z.add_0_r in U. fold (pnl_at (xe_mk e) p (xe_price e)) in U.
  pose proof (uhupnl_shift e p s y pr ty) as SH.
  assert (G1 : hupnl (perp_info e p pr) ty = uhupnl (perp_info e p pr) ty) by (unfold hupnl; cbv zeta; destruct (Z.ltb_spec 0 (uhupnl (perp_info e p pr) ty)); [exfalso; unfold perp_info, new_pinfo in *; lia|reflexivity]).
  assert (G2 : hupnl (perp_info e (add_quote (settle_funding p (xe_mk e)) s y) pr) ty = uhupnl (perp_info e p pr) ty + s).
  { unfold hupnl. cbv zeta. rewrite SH. destruct (Z.ltb_spec 0 (uhupnl (perp_info e p pr) ty + s)); [exfalso; unfold perp_info, new_pinfo in *; lia|reflexivity]. }
  assert (V : uhupnl (perp_info e p pr) ty + s <= 0) by (unfold perp_info, new_pinfo in *; lia). clear U SH.
  unfold counted. rewrite G1, G2. set (u := uhupnl (perp_info e p pr) ty) in *. clearbody u. split; [lia|]. split; [lia|].
  destruct ign; cbn [negb orb]; [|lia]. destruct (Z.ltb_spec 0 (u + s)); [lia|]. destruct (Z.ltb_spec 0 u); lia.
Qed.

(** B's health does not change, but for rounding; as the settler it gets the fee. *)
Theorem C87_loser : forall e b a c w signed o ty hc h hc' h', perp_settle_pnl e b a c w signed = Some o ->
  settle_bank_ok b -> 0 < t_use (sa_tok a) -> settle_acct_ok c -> other_ok w -> market_shown e c -> no_fills (sa_perp c) -> fixed_weights (xe_cfg e) ty ->
  acct_cache e b c = Some hc -> health hc ty = Some h -> acct_cache e (so_bank o) (so_b o) = Some hc' -> health hc' ty = Some h' ->
  no_reserved hc -> Forall token_ok (hc_tokens hc) ->
  exists i t, nth_info hc (wc_index (xe_cfg e)) = Some (i, t) /\
    - (4 * top_price t ty + fone) < (h' - h) * fone < (fee_to_b w (so_fee o) + 2 * ix_round b) * top_price t ty + fone.
Proof.
  intros e b a c w signed o ty hc h hc' h' H (D & B & LO) UA (N1 & N2 & UC) OO MS NF FW HC Hh HC' Hh' NR TO.
  pose proof (C87_amounts _ _ _ _ _ _ _ H) as (_ & S0 & _ & SB & FE & _). cbv zeta in *. apply settle_inv in H as (_ & hc1 & ha & bmax & he & hm & r & W).
  pose proof (token_moves _ _ _ _ _ _ _ _ _ _ _ _ (conj D B) LO UA UC OO W) as (NN & _ & DC & _). destruct W as [[_ PC] HC1 _ _ _ _ R [E1 E2] _ EB _].
  rewrite HC in HC1. apply some_inj in HC1. subst hc1. destruct (has_in _ _ PC) as [I1 I2]. rewrite EB in HC'.
  pose proof (cache_change e b (so_bank o) c (st_b r) (sa_tok (so_b o)) hc hc' N1 I1 HC HC') as CH.
  destruct (health_changed e c (fst (st_b r)) _ hc hc' ty false h h' CH N2 I2 NR FW Hh Hh') as (pi & t & Ipi & Mpi & NI & UI & It & EH). cbv zeta in EH.
  destruct (nth_info hc (wc_index (xe_cfg e))) as [[i u]|] eqn:NX; [|contradiction]. pose proof (UI i u eq_refl) as ->. exists i, t. split; [reflexivity|].
  destruct (MS pi Ipi Mpi) as [MO MH]. destruct (settled_positions _ _ _ _ _ _ _ _ _ _ _ _ _ R) as [_ [y Y]]. rewrite Y in EH. rewrite <- E1 in EH.
  destruct (loser_hupnl e (sa_perp c) (so_amount o) y (pi_prices pi) ty false MH NF MO ltac:(lia) SB) as (_ & _ & L3). rewrite L3 in EH. cbn iota in EH.
  rewrite EH. rewrite Z.add_simpl_l. rewrite Forall_forall in TO.
  assert (F0 : 0 <= fee_to_b w (so_fee o)) by (unfold fee_to_b; destruct w; lia).
  apply contribution_step; [apply TO, It|lia|lia|]. clear - DC F0. lia.
Qed.
Print Assumptions C87_loser.

(** A's health is not lowered by more than the fee, which it gets back as the settler, but for rounding. *)
Theorem C87_winner : forall e b a c w signed o ty ha h ha' h', perp_settle_pnl e b a c w signed = Some o ->
  settle_bank_ok b -> settle_acct_ok a -> 0 < t_use (sa_tok c) -> other_ok w -> fixed_weights (xe_cfg e) ty ->
  0 <= bp_maint_ov (xe_par e) <= fone -> 0 <= bp_init_ov (xe_par e) <= fone ->
  acct_cache e b a = Some ha -> health ha ty = Some h -> acct_cache e (so_bank o) (so_a o) = Some ha' -> health ha' ty = Some h' ->
  no_reserved ha -> Forall token_ok (hc_tokens ha) ->
  exists i t, nth_info ha (wc_index (xe_cfg e)) = Some (i, t) /\
    - ((so_fee o - fee_to_a w (so_fee o) + 5) * top_price t ty + fone) < (h' - h) * fone.
Proof.
  intros e b a c w signed o ty ha h ha' h' H (D & B & LO) (N1 & N2 & UA) UC OO FW OV1 OV2 HA Hh HA' Hh' NR TO.
  pose proof (C87_amounts _ _ _ _ _ _ _ H) as (_ & S0 & _ & _ & FE & _). cbv zeta in *. apply settle_inv in H as (_ & hc & ha1 & bmax & he & hm & r & W).
  pose proof (token_moves _ _ _ _ _ _ _ _ _ _ _ _ (conj D B) LO UA UC OO W) as (NN & DA & _). destruct W as [[PA _] _ _ HA1 _ _ R [E1 E2] EA _ _].
  rewrite HA in HA1. apply some_inj in HA1. subst ha1. destruct (has_in _ _ PA) as [I1 I2]. rewrite EA in HA'.
  pose proof (cache_change e b (so_bank o) a (st_a r) (sa_tok (so_a o)) ha ha' N1 I1 HA HA') as CH.
  destruct (health_changed e a (fst (st_a r)) _ ha ha' ty false h h' CH N2 I2 NR FW Hh Hh') as (pi & t & Ipi & Mpi & NI & UI & It & EH). cbv zeta in EH.
  destruct (nth_info ha (wc_index (xe_cfg e))) as [[i u]|] eqn:NX; [|contradiction]. pose proof (UI i u eq_refl) as ->. exists i, t. split; [reflexivity|].
  destruct (settled_positions _ _ _ _ _ _ _ _ _ _ _ _ _ R) as [[y Y] _]. rewrite Y in EH. rewrite <- E1 in EH.
  unfold counted in EH. cbn [negb orb] in EH. rewrite !hupnl_weigh, uhupnl_shift in EH.
  change (overall_weight (perp_info e (add_quote (settle_funding (sa_perp a) (xe_mk e)) (- so_amount o) y) (pi_prices pi)) ty) with (overall_weight (perp_info e (sa_perp a) (pi_prices pi)) ty) in EH.
  assert (OW : 0 <= overall_weight (perp_info e (sa_perp a) (pi_prices pi)) ty <= fone) by (destruct ty; cbn [overall_weight perp_info new_pinfo pi_maint_overall pi_init_overall]; assumption).
  pose proof (weigh_shift _ (uhupnl (perp_info e (sa_perp a) (pi_prices pi)) ty) (so_amount o) OW ltac:(lia)) as WS. replace (uhupnl (perp_info e (sa_perp a) (pi_prices pi)) ty - so_amount o) with (uhupnl (perp_info e (sa_perp a) (pi_prices pi)) ty + - so_amount o) in WS by lia.
  set (z1 := weigh _ (_ + _)) in *. set (z0 := weigh _ _) in *. clearbody z0 z1. rewrite EH, Z.add_simpl_l. rewrite Forall_forall in TO. specialize (TO t It).
  match goal with |- _ < (contribution t ty (?x + ?d) - _) * _ => set (x0 := x); set (dd := d); assert (DD : - (so_fee o - fee_to_a w (so_fee o) + 5) <= dd <= Z.max dd 0) by (clear - WS DA; unfold dd; lia) end.
  apply (contribution_step t ty x0 dd _ (Z.max dd 0) TO); [unfold fee_to_a; destruct w; lia|lia|exact DD].
Qed.
Print Assumptions C87_winner.

(** What B paid was backed: the maintenance health that counts only its spot balances and profitable perp positions was positive, and
    stays so but for rounding. *)
Theorem C87_backed : forall e b a c w signed o hc g hc' g', perp_settle_pnl e b a c w signed = Some o ->
  settle_bank_ok b -> 0 < t_use (sa_tok a) -> settle_acct_ok c -> other_ok w -> market_shown e c -> no_fills (sa_perp c) ->
  acct_cache e b c = Some hc -> settle_health hc = Some g -> acct_cache e (so_bank o) (so_b o) = Some hc' -> settle_health hc' = Some g' ->
  no_reserved hc -> Forall token_ok (hc_tokens hc) ->
  0 < g /\ exists i t, nth_info hc (wc_index (xe_cfg e)) = Some (i, t) /\ - (2 * fone + 4 * top_price t HMaint) < g' * fone.
Proof.
  intros e b a c w signed o hc g hc' g' H (D & B & LO) UA (N1 & N2 & UC) OO MS NF HC Hg HC' Hg' NR TO.
  pose proof (C87_amounts _ _ _ _ _ _ _ H) as (_ & S0 & _ & SB & FE & _ & _ & _ & _ & (hc2 & bm & HC2 & BM & SM) & _). cbv zeta in *. rewrite HC in HC2. apply some_inj in HC2. subst hc2.
  apply settle_inv in H as (_ & hc1 & ha & bmax & he & hm & r & W).
  pose proof (token_moves _ _ _ _ _ _ _ _ _ _ _ _ (conj D B) LO UA UC OO W) as (NN & _ & DC & _). destruct W as [[_ PC] HC1 _ _ _ _ R [E1 E2] _ EB _].
  rewrite HC in HC1. apply some_inj in HC1. subst hc1. destruct (has_in _ _ PC) as [I1 I2]. rewrite EB in HC'.
  pose proof (cache_change e b (so_bank o) c (st_b r) (sa_tok (so_b o)) hc hc' N1 I1 HC HC') as CH.
  assert (FW : fixed_weights (xe_cfg e) HMaint) by (left; discriminate).
  destruct (health_changed e c (fst (st_b r)) _ hc hc' HMaint true g g' CH N2 I2 NR FW Hg Hg') as (pi & t & Ipi & Mpi & NI & UI & It & EH). cbv zeta in EH.
  destruct (nth_info hc (wc_index (xe_cfg e))) as [[i u]|] eqn:NX; [|contradiction]. pose proof (UI i u eq_refl) as ->.
  destruct (MS pi Ipi Mpi) as [MO MH]. destruct (settled_positions _ _ _ _ _ _ _ _ _ _ _ _ _ R) as [_ [y Y]]. rewrite Y in EH. rewrite <- E1 in EH.
  destruct (loser_hupnl e (sa_perp c) (so_amount o) y (pi_prices pi) HMaint true MH NF MO ltac:(lia) SB) as (_ & _ & L3). rewrite L3 in EH. cbn iota in EH. rewrite Z.add_0_r in EH.
  rewrite Forall_forall in TO. specialize (TO t It). pose proof (asset_wp_le t HMaint HMaint (stricter_refl _) TO) as [A _]. pose proof (liab_wp_le t HMaint HMaint (stricter_refl _) TO) as [L _].
  assert (TK : spot_amount_taken g (token_bal true (hc_perps hc) HMaint t) (asset_wp t HMaint) (liab_wp t HMaint) = Some bm).
  { unfold perp_max_settle in BM. unfold settle_health in Hg. destruct (balances hc HMaint true) as [Bl|] eqn:HB; [|discriminate]. rewrite Hg in BM. apply nth_info_some in NX as NX'. destruct NX' as (TP & _ & _). rewrite TP in BM.
    unfold nth_info in NX. rewrite TP in NX. destruct (nth_error (hc_tokens hc) i) as [u|] eqn:NE; [|discriminate]. apply some_inj in NX. assert (u = t) by congruence. subst u.
    apply balances_map_ign in HB; [|apply CH]. subst Bl. erewrite (nth_indep _ 0) in BM; [|rewrite map_length; apply nth_error_Some; congruence]. rewrite (map_nth (token_bal true (hc_perps hc) HMaint) (hc_tokens hc) t i) in BM.
    rewrite (nth_error_nth _ _ _ NE) in BM. exact BM. }
  destruct (C42_taken _ _ _ _ _ A TK) as [T1 T2]. assert (G0 : 0 < g) by (destruct (Z.leb_spec g 0) as [Q|Q]; [specialize (T1 Q); lia|exact Q]). split; [exact G0|]. exists i, t. split; [reflexivity|].
  destruct (T2 G0) as [_ [T3 _]]. set (x := token_bal true (hc_perps hc) HMaint t) in *. set (d := native (so_bank o) (sa_tok (so_b o)) - native b (sa_tok c)) in *.
  assert (DD : - bm - 4 <= d) by (unfold fee_to_b in DC; destruct w; lia). clearbody d x.
  pose proof (worth_step _ _ (x - bm - 4) 4 A L ltac:(lia)) as W1. replace (x - bm - 4 + 4) with (x - bm) in W1 by lia.
  pose proof (worth_step _ _ (x - bm - 4) (d + bm + 4) A L ltac:(lia)) as W2. replace (x - bm - 4 + (d + bm + 4)) with (x + d) in W2 by lia.
  pose proof (contribution_worth t HMaint x) as C1. pose proof (contribution_worth t HMaint (x + d)) as C2. unfold top_price. subst g'.
  set (m := Z.max _ _) in *. clear - T3 W1 W2 C1 C2. set (w0 := worth _ _ x) in *. set (w1 := worth _ _ (x - bm)) in *. set (w2 := worth _ _ (x - bm - 4)) in *. set (w3 := worth _ _ (x + d)) in *. set (c1 := contribution _ _ x) in *. set (c2 := contribution _ _ _) in *.
  clearbody w0 w1 w2 w3 c1 c2. lia.
Qed.
Print Assumptions C87_backed.

(** ** examples *)
Definition ex_scfg : wcfg := mv_cfg 0 90 110 None.
Definition ex_spar (ov : Z) : bpar := mkBP (pct 80) (pct 120) (pct ov) (pct ov) 0 0 0.
(** no settle limit; fee of 2 for settling at least 10 *)
Definition ex_ssc : scfg := mkSC (-1) 0 0 3600 fone (of_int 2) (of_int 10) 0.
Definition ex_xenv (ov : Z) : senv := mkXE ex_bmk (ex_spar ov) ex_ssc ex_scfg fone fone 50.
Definition ex_sbank (ta tc : tpos) : bank :=
  set_totals ex_bank (Z.max (t_ix ta) 0 + Z.max (t_ix tc) 0 + of_int 1) (Z.max (- t_ix ta) 0 + Z.max (- t_ix tc) 0) 0 0.
(** [tok] settle tokens, and [other] of a second token, at prices of 1 *)
Definition ex_sacct (tok : Z) (p : position) (other : Z) : sacct :=
  mkSA p lim0 (mkTpos (t_ix (ex_tpos tok)) 1) [mkPosIn true true true (tok_w 0 90 110 0); mkPosIn true true (0 <=? other) (tok_w 1 80 120 other)] []
   [new_pinfo p ex_bmk 0 0 0 0 0 (mkPr fone fone)].
Definition quote_pos (x : Z) : position := mkPos 0 (of_int x) 0 0 0 0 0 0 0.
Definition ex_third : settler := SettlerOther (mkTpos 0 0).
Ltac sacctok := split; [vm_compute; repeat constructor; cbn; intuition discriminate|split; [vm_compute; repeat constructor; cbn; intuition discriminate|zc]].
Ltac sbankok := split; [zc|split; zc].
Ltac sshown := intros ? [<-|[]] _; split; [vm_compute; reflexivity|]; unfold perp_haircut, prices_ok; (split; [split; zc|]); (split; [split; zc|]); do 5 (split; [zc|]); split; zc.
Ltac stoks := cbn [hc_tokens]; repeat apply Forall_cons; try apply Forall_nil; tokok.

(** A has a profit of 50, B a loss of 80 and 60 settle tokens: 50 are settled, for a fee of 2 *)
Example C87_example : let e := ex_xenv 50 in let a := ex_sacct 10 (quote_pos 50) 0 in let c := ex_sacct 60 (quote_pos (-80)) 10 in let b := ex_sbank (sa_tok a) (sa_tok c) in
  settle_bank_ok b /\ settle_acct_ok a /\ settle_acct_ok c /\ other_ok ex_third /\ market_shown e c /\ no_fills (sa_perp c) /\ fixed_weights (xe_cfg e) HMaint /\
  exists o ha ha' hc hc' h1 h2 h3 h4 g g', perp_settle_pnl e b a c ex_third true = Some o /\ so_amount o = of_int 50 /\ so_fee o = of_int 2 /\
    to_int (native (so_bank o) (sa_tok (so_a o))) = 58 /\ to_int (native (so_bank o) (sa_tok (so_b o))) = 9 /\
    acct_cache e b a = Some ha /\ health ha HMaint = Some h1 /\ acct_cache e (so_bank o) (so_a o) = Some ha' /\ health ha' HMaint = Some h2 /\
    acct_cache e b c = Some hc /\ health hc HMaint = Some h3 /\ acct_cache e (so_bank o) (so_b o) = Some hc' /\ health hc' HMaint = Some h4 /\
    settle_health hc = Some g /\ settle_health hc' = Some g' /\ map to_int [h1; h2; h3; h4; g; g'] = [31; 52; -15; -15; 61; 16] /\
    no_reserved ha /\ no_reserved hc /\ Forall token_ok (hc_tokens ha) /\ Forall token_ok (hc_tokens hc).
Proof.
  cbv zeta. split; [sbankok|]. split; [sacctok|]. split; [sacctok|]. split; [right; zc|]. split; [sshown|]. split; [split; reflexivity|]. split; [left; discriminate|].
  do 11 eexists. do 16 (split; [vm_compute; reflexivity|]). split; [apply Forall_nil|]. split; [apply Forall_nil|]. split; stoks.
Qed.

(** The fee can make A liquidatable: anyone may settle an account that is just healthy, with a maintenance health of 0.6, for a fee of 2. *)
Theorem C87_fee_refuted : exists e b a c w o ha ha' h h',
  settle_bank_ok b /\ settle_acct_ok a /\ settle_acct_ok c /\ other_ok w /\ perp_settle_pnl e b a c w true = Some o /\
  acct_cache e b a = Some ha /\ health ha HMaint = Some h /\ acct_cache e (so_bank o) (so_a o) = Some ha' /\ health ha' HMaint = Some h' /\
  no_reserved ha /\ Forall token_ok (hc_tokens ha) /\ 0 < h /\ h' < - fone.
Proof.
  exists (ex_xenv 100). exists (ex_sbank (mkTpos (t_ix (ex_tpos 10)) 1) (mkTpos (t_ix (ex_tpos 60)) 1)). exists (ex_sacct 10 (quote_pos 20) (-22)), (ex_sacct 60 (quote_pos (-80)) 10), ex_third.
  do 5 eexists. split; [sbankok|]. split; [sacctok|]. split; [sacctok|]. split; [right; zc|]. do 5 (split; [vm_compute; reflexivity|]). split; [apply Forall_nil|]. split; [stoks|]. split; zc.
Qed.
Print Assumptions C87_fee_refuted.

(** B's health can fall if it has unprocessed fills: they count for health (with the weight 0 of the market, once the position is in
    profit), but not for the loss that is settled. *)
Theorem C87_fills_refuted : exists e b a c w o hc hc' h h',
  settle_bank_ok b /\ settle_acct_ok a /\ settle_acct_ok c /\ other_ok w /\ market_shown e c /\ perp_settle_pnl e b a c w true = Some o /\
  acct_cache e b c = Some hc /\ health hc HMaint = Some h /\ acct_cache e (so_bank o) (so_b o) = Some hc' /\ health hc' HMaint = Some h' /\
  no_reserved hc /\ Forall token_ok (hc_tokens hc) /\ to_int h = 29 /\ to_int h' = 0.
Proof.
  exists (ex_xenv 0). exists (ex_sbank (mkTpos (t_ix (ex_tpos 10)) 1) (mkTpos (t_ix (ex_tpos 60)) 1)).
  exists (ex_sacct 10 (quote_pos 50) 0), (ex_sacct 60 (mkPos 0 (of_int (-40)) 0 0 0 80 0 0 0) (-20)), ex_third.
  do 5 eexists. split; [sbankok|]. split; [sacctok|]. split; [sacctok|]. split; [right; zc|]. split; [sshown|]. do 5 (split; [vm_compute; reflexivity|]). split; [apply Forall_nil|]. split; [stoks|]. split; vm_compute; reflexivity.
Qed.
Print Assumptions C87_fills_refuted.
