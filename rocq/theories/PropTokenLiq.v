(** C69: what a spot liquidation moves, at which price; C70: what it does to the health of
    the liquidated account.  Public statements. *)
From Coq Require Import List ZArith Lia Bool.
From Verif Require Import OrderTree Keys PerpTypes Interest Bank BankFacts BankInv BankSystem Health HealthSpec HealthFacts HealthMore PropInterest PropBank
  LiqState TokenLiq TokenLiqSpec TokenLiqFacts Fixed.
Import ListNotations.
Open Scope Z_scope.

Definition gtrue := guard_some.
Lemma liq_inv e s mx lf rg hl s' am : token_liq_with_token e s mx lf rg hl = Some (s', Some am) ->
  exists h m, le_ia e <> le_il e /\ lf = false /\ Health.health (ls_cache s) HLiqEnd = Some h /\ Health.health (ls_cache s) HMaint = Some m /\
    after_phase1 (ls_cache s) = true /\ check_liquidatable (ls_flag s) m h = (Liquidatable, true) /\
    liquidation_action e (mkLS (ls_cache s) true (ls_abank s) (ls_lbank s) (ls_ee_asset s) (ls_ee_liab s) (ls_or_asset s) (ls_or_liab s)) h mx = Some (s', am) /\
    (rg = true \/ 0 <= hl (ls_abank s') (ls_lbank s') (ls_or_asset s') (ls_or_liab s')).
Proof.
  unfold token_liq_with_token. destruct (Z.eqb_spec (le_ia e) (le_il e)) as [|NE]; cbn [negb guard]; [discriminate|].
  destruct lf; cbn [negb guard]; [discriminate|]. destruct (Health.health (ls_cache s) HLiqEnd) as [h|]; [|discriminate].
  destruct (after_phase1 (ls_cache s)) eqn:AP; cbn [guard]; [|discriminate]. destruct (Health.health (ls_cache s) HMaint) as [m|]; [|discriminate].
  destruct (check_liquidatable (ls_flag s) m h) as [[] f] eqn:C; try discriminate.
  assert (f = true) as ->. { unfold check_liquidatable in C. destruct (ls_flag s); [destruct (recover true h)|destruct (0 <=? m)]; congruence. }
  destruct (liquidation_action _ _ _ _) as [[s1 am1]|] eqn:E; [|discriminate].
  destruct (rg || (0 <=? _)) eqn:G; cbn [guard]; [|discriminate]. intros H. apply some_inj in H. apply pair_equal_spec in H as [H1 H2]. apply some_inj in H2. subst s1 am1.
  exists h, m. do 6 (split; [first [assumption|reflexivity]|]). split; [exact E|]. apply orb_prop in G as [G|G]; [left|right; apply Z.leb_le in G]; assumption.
Qed.
Definition started (s : lstate) : lstate := mkLS (ls_cache s) true (ls_abank s) (ls_lbank s) (ls_ee_asset s) (ls_ee_liab s) (ls_or_asset s) (ls_or_liab s).
Lemma started_ok e s : lstate_ok e s -> lstate_ok e (started s). Proof. intros H. exact H. Qed.

(** ** C69 *)
(** When a liquidation may happen. *)
Theorem C69_conditions e s mx liqor_flag region liqor_init s' liab to from :
  lenv_ok e -> lstate_ok e s -> token_liq_with_token e s mx liqor_flag region liqor_init = Some (s', Some (liab, to, from)) ->
  le_ia e <> le_il e /\ liqor_flag = false /\ has_phase1 (ls_cache s) = false /\
  (exists m h, Health.health (ls_cache s) HMaint = Some m /\ Health.health (ls_cache s) HLiqEnd = Some h /\
     (ls_flag s = false /\ m < 0 \/ ls_flag s = true /\ h <= - fone)) /\
  0 < native (ls_abank s) (ls_ee_asset s) /\ native (ls_lbank s) (ls_ee_liab s) < 0 /\ lp_allow (le_a e) = true /\ 0 < mx /\
  (region = true \/ 0 <= liqor_init (ls_abank s') (ls_lbank s') (ls_or_asset s') (ls_or_liab s')).
Proof.
  intros K O H. apply liq_inv in H as (h & m & NE & LF & Hh & Hm & AP & CL & HA & HR).
  pose proof HA as HA0. apply (action_spec e (started s)) in HA as (h' & F); [|assumption|apply started_ok; assumption|assumption..].
  split; [exact NE|]. split; [exact LF|].
  split. { unfold after_phase1 in AP. unfold has_phase1. apply andb_prop in AP as [A1 A2]. apply negb_true_iff in A1, A2. rewrite A1, A2. reflexivity. }
  split. { exists m, h. split; [exact Hm|]. split; [exact Hh|]. unfold check_liquidatable in CL. destruct (ls_flag s).
    - right. split; [reflexivity|]. unfold recover in CL. cbn [andb] in CL. destruct (Z.ltb_spec (- fone) h); [discriminate|lia].
    - left. split; [reflexivity|]. destruct (Z.leb_spec 0 m); [discriminate|lia]. }
  split; [exact (af_asset _ _ _ _ _ _ _ _ _ F)|]. split; [exact (af_liab _ _ _ _ _ _ _ _ _ F)|]. split; [exact (af_allow _ _ _ _ _ _ _ _ _ F)|].
  split; [|exact HR].
  unfold liquidation_action in HA0. cbn zeta in HA0. destruct (guard (0 <? _)) in HA0; [|discriminate]. destruct (guard (lp_allow _)) in HA0; [|discriminate]. destruct (guard (_ <? 0)) in HA0; [|discriminate].
  destruct (nth_info _ _) as [[il tl]|] in HA0; [|discriminate]. destruct (nth_info _ _) as [[ia ta]|] in HA0; [|discriminate]. destruct (balances _ _ _) as [B|] in HA0; [|discriminate].
  match type of HA0 with match guard (0 <? ?x) with _ => _ end = _ => destruct (Z.ltb_spec 0 x); [lia|cbn [guard] in HA0; discriminate] end.
Qed.
Print Assumptions C69_conditions.

(** An account that is not liquidatable keeps everything; only its mark can be removed, by being above minus one unit. *)
Theorem C69_nothing e s mx liqor_flag region liqor_init s' :
  token_liq_with_token e s mx liqor_flag region liqor_init = Some (s', None) ->
  s' = mkLS (ls_cache s) false (ls_abank s) (ls_lbank s) (ls_ee_asset s) (ls_ee_liab s) (ls_or_asset s) (ls_or_liab s) /\
  exists m h, Health.health (ls_cache s) HMaint = Some m /\ Health.health (ls_cache s) HLiqEnd = Some h /\
     (ls_flag s = false /\ 0 <= m \/ ls_flag s = true /\ - fone < h).
Proof.
  unfold token_liq_with_token. destruct (guard (negb (_ =? _))); [|discriminate].
  destruct (guard (negb liqor_flag)); [|discriminate]. destruct (Health.health (ls_cache s) HLiqEnd) as [h|]; [|discriminate].
  destruct (guard (after_phase1 _)); [|discriminate]. destruct (Health.health (ls_cache s) HMaint) as [m|]; [|discriminate].
  destruct (check_liquidatable (ls_flag s) m h) as [l f] eqn:C. intros H.
  assert (X : l <> Liquidatable). { intros ->. destruct (liquidation_action _ _ _ _) as [[]|] in H; [|discriminate]. destruct (guard _) in H; discriminate. }
  assert (Y : f = false /\ (ls_flag s = false /\ 0 <= m \/ ls_flag s = true /\ - fone < h)).
  { unfold check_liquidatable, recover in C. destruct (ls_flag s); cbn [andb] in C.
    - destruct (Z.ltb_spec (- fone) h); cbn [negb] in C; [|congruence]. split; [congruence|]. right. split; [reflexivity|assumption].
    - destruct (Z.leb_spec 0 m); [|congruence]. split; [congruence|]. left. split; [reflexivity|assumption]. }
  destruct Y as [-> Y]. split; [destruct l; congruence|]. exists m, h. tauto.
Qed.
Print Assumptions C69_nothing.

(** The amounts: no more than asked for, no more than is owed; the liqee gives the oracle value of it plus the fees of
    both tokens, the liqor gets its part, the bank the rest; the liqee gives no more than it has, up to rounding of the
    price. *)
Theorem C69_amounts e s mx liqor_flag region liqor_init s' liab to from :
  lenv_ok e -> lstate_ok e s -> token_liq_with_token e s mx liqor_flag region liqor_init = Some (s', Some (liab, to, from)) ->
  0 <= liab <= mx /\ liab <= - native (ls_lbank s) (ls_ee_liab s) /\
  0 <= to <= from /\ b_fees (ls_abank s') = b_fees (ls_abank s) + (from - to) /\
  (price_liqor e liab - (fone + le_aop e) * (fone + lp_fee (le_l e)) * (fone + lp_fee (le_a e)) - fone * (fone * le_aop e) - (liab * le_lop e) * fone
     <= to * le_aop e * (fone * fone) <= price_liqor e liab) /\
  (price_total e liab - (fone + le_aop e) * (fone + lp_fee (le_l e) + lp_platform (le_l e)) * (fone + lp_fee (le_a e) + lp_platform (le_a e)) - fone * (fone * le_aop e) - (liab * le_lop e) * fone
     <= from * le_aop e * (fone * fone) <= price_total e liab) /\
  from * le_aop e <= native (ls_abank s) (ls_ee_asset s) * le_aop e + liab.
Proof.
  intros K O H. apply liq_inv in H as (h & m & NE & LF & Hh & Hm & AP & CL & HA & HR).
  pose proof (action_money e (started s) _ _ _ _ _ _ (started_ok _ _ O) HA) as (_ & _ & FE).
  apply (action_spec e (started s)) in HA as (h' & F); [|assumption|apply started_ok; assumption|assumption..].
  destruct F. cbn [started ls_abank ls_lbank ls_ee_asset ls_ee_liab ls_or_asset ls_or_liab] in *. tauto.
Qed.
Print Assumptions C69_amounts.

(** The balances move by these amounts: the liqee's up to rounding and dust below one token, the liqor's
    besides for the loan origination fee on what it had to borrow. *)
Theorem C69_balances e s mx liqor_flag region liqor_init s' liab to from :
  lenv_ok e -> lstate_ok e s -> token_liq_with_token e s mx liqor_flag region liqor_init = Some (s', Some (liab, to, from)) ->
  (liab - 2 < native (ls_lbank s') (ls_ee_liab s') - native (ls_lbank s) (ls_ee_liab s) < liab + ix_round (ls_lbank s)) /\
  (- from - fone - 2 < native (ls_abank s') (ls_ee_asset s') - native (ls_abank s) (ls_ee_asset s) < - from + ix_round (ls_abank s)) /\
  to - fone - 2 < native (ls_abank s') (ls_or_asset s') - native (ls_abank s) (ls_or_asset s) /\
  - (liab + fmul (b_lof (ls_lbank s)) (Z.max 0 (liab - Z.max (native (ls_lbank s) (ls_or_liab s)) 0))) - fone - 2 <
    native (ls_lbank s') (ls_or_liab s') - native (ls_lbank s) (ls_or_liab s).
Proof.
  intros K O H. apply liq_inv in H as (h & m & NE & LF & Hh & Hm & AP & CL & HA & HR).
  pose proof (action_liqor e (started s) _ _ _ _ _ _ (started_ok _ _ O) HA) as [Q1 Q2].
  apply (action_spec e (started s)) in HA as (h' & F); [|assumption|apply started_ok; assumption|assumption..].
  destruct F. cbn [started ls_abank ls_lbank ls_ee_asset ls_ee_liab ls_or_asset ls_or_liab] in *. tauto.
Qed.
Print Assumptions C69_balances.

(** No tokens appear or vanish: per token, the claims of the two accounts, the fees and the dust together change by
    less than the worth of two shares, and the bank's totals move with the positions. *)
Theorem C69_conserved e s mx liqor_flag region liqor_init s' r :
  lstate_ok e s -> token_liq_with_token e s mx liqor_flag region liqor_init = Some (s', Some r) ->
  let A := ls_abank s in let A' := ls_abank s' in let Lb := ls_lbank s in let Lb' := ls_lbank s' in
  bank_moved A A' (ls_ee_asset s) (ls_ee_asset s') (ls_or_asset s) (ls_or_asset s') /\
  bank_moved Lb Lb' (ls_ee_liab s) (ls_ee_liab s') (ls_or_liab s) (ls_or_liab s') /\
  - 2 * fone < two_claims A' (ls_ee_asset s') (ls_or_asset s') - two_claims A (ls_ee_asset s) (ls_or_asset s) < 2 * Z.max (b_di A) (b_bi A) /\
  - 2 * fone < two_claims Lb' (ls_ee_liab s') (ls_or_liab s') - two_claims Lb (ls_ee_liab s) (ls_or_liab s) < 2 * Z.max (b_di Lb) (b_bi Lb).
Proof.
  intros O H. destruct r as [[liab to] from]. apply liq_inv in H as (h & m & NE & LF & Hh & Hm & AP & CL & HA & HR).
  pose proof (action_money e (started s) _ _ _ _ _ _ (started_ok _ _ O) HA) as ((M1 & M2) & (M3 & M4) & _).
  cbn [started ls_abank ls_lbank ls_ee_asset ls_ee_liab ls_or_asset ls_or_liab] in *. tauto.
Qed.
Print Assumptions C69_conserved.

(** ** C70 *)
(** While a liab token brings more health than the assets paid for it ([gain] positive) a liquidation does not make the
    liqee's liquidation-end health worse, and does not lift it above zero, both up to rounding. *)
Theorem C70_health e s mx liqor_flag region liqor_init s' liab to from h :
  lenv_ok e -> lstate_ok e s -> token_liq_with_token e s mx liqor_flag region liqor_init = Some (s', Some (liab, to, from)) ->
  Health.health (ls_cache s) HLiqEnd = Some h -> 0 < gain e ->
  exists h', Health.health (ls_cache s') HLiqEnd = Some h' /\
    h * fone + liab * gain e - loss_slack e s liab <= h' * fone /\ h' * fone <= Z.max h 0 * fone + gain_slack e s from.
Proof.
  intros K O H Hh0 GP. apply liq_inv in H as (h1 & m & NE & LF & Hh & Hm & AP & CL & HA & HR). assert (h1 = h) as -> by congruence.
  apply (action_spec e (started s)) in HA as (h' & F); [|assumption|apply started_ok; assumption|assumption..].
  exists h'. destruct F. split; [assumption|]. specialize (af_need GP).
  change (loss_slack e (started s) liab) with (loss_slack e s liab) in *. change (gain_slack e (started s) from) with (gain_slack e s from) in *.
  set (l1 := loss_slack e s liab) in *. set (g1 := gain_slack e s from) in *. pose proof fone_pos as FP. clearbody l1 g1.
  split; [lia|]. assert (Z.max (- h * fone) 0 <= Z.max h 0 * fone - h * fone) by (destruct (Z.le_gt_cases h 0); [rewrite (Z.max_r h) by lia|rewrite (Z.max_l h) by lia]; lia). lia.
Qed.
Print Assumptions C70_health.

(** The being-liquidated mark stays exactly while the new liquidation-end health is at most minus one native unit. *)
Theorem C70_flag e s mx liqor_flag region liqor_init s' r :
  lenv_ok e -> lstate_ok e s -> token_liq_with_token e s mx liqor_flag region liqor_init = Some (s', Some r) ->
  exists h', Health.health (ls_cache s') HLiqEnd = Some h' /\ (ls_flag s' = true <-> h' <= - fone).
Proof.
  intros K O H. destruct r as [[liab to] from]. apply liq_inv in H as (h & m & NE & LF & Hh & Hm & AP & CL & HA & HR).
  apply (action_spec e (started s)) in HA as (h' & F); [|assumption|apply started_ok; assumption|assumption..].
  exists h'. destruct F. split; [assumption|]. rewrite af_flag. cbn [started ls_flag]. unfold recover. cbn [andb]. destruct (Z.ltb_spec (- fone) h'); cbn [negb]; split; intros; try lia; try discriminate; reflexivity.
Qed.
Print Assumptions C70_flag.

(** When the fees eat up the distance of the weights ([gain] negative) nothing is liquidated. *)
Theorem C70_no_gain e s mx liqor_flag region liqor_init s' liab to from h :
  lenv_ok e -> lstate_ok e s -> token_liq_with_token e s mx liqor_flag region liqor_init = Some (s', Some (liab, to, from)) ->
  Health.health (ls_cache s) HLiqEnd = Some h -> h <= 0 -> gain e <= 0 -> liab = 0 /\ to = 0 /\ from = 0.
Proof.
  intros K O H Hh0 HN GN. apply liq_inv in H as (h1 & m & NE & LF & Hh & Hm & AP & CL & HA & HR). assert (h1 = h) as -> by congruence.
  apply (action_spec e (started s)) in HA as (h' & F); [|assumption|apply started_ok; assumption|assumption..].
  destruct F. assert (GL : gain e < 0) by lia. specialize (af_neg GL HN). subst liab.
  destruct K as (_ & _ & P1 & P2). pose proof fone_pos as FP. unfold price_total in af_price_from. rewrite !Z.mul_0_l in af_price_from.
  assert (PP : 0 < le_aop e * (fone * fone)) by nia. assert (from <= 0) by nia. split; [reflexivity|]. lia.
Qed.
Print Assumptions C70_no_gain.

(** As much is liquidated as possible: the transfer stops at what was asked for, at the end of the borrow or of its
    weight in health, at the end of the asset, or at health zero. *)
Theorem C70_complete e s mx liqor_flag region liqor_init s' liab to from h :
  lenv_ok e -> lstate_ok e s -> token_liq_with_token e s mx liqor_flag region liqor_init = Some (s', Some (liab, to, from)) ->
  Health.health (ls_cache s) HLiqEnd = Some h -> 0 < gain e ->
  exists B ia il h', balances (ls_cache s) HLiqEnd false = Some B /\ token_pos (hc_tokens (ls_cache s)) (le_ia e) = Some ia /\
    token_pos (hc_tokens (ls_cache s)) (le_il e) = Some il /\ Health.health (ls_cache s') HLiqEnd = Some h' /\
    liab <= - nth il B 0 /\
    (liab = mx \/ liab = - native (ls_lbank s) (ls_ee_liab s) \/ liab = - nth il B 0 \/
     Z.min (native (ls_abank s) (ls_ee_asset s)) (nth ia B 0) * le_aop e < (liab + 1) * fmul (le_lop e) (fee_factor_total (le_a e) (le_l e)) + fone \/
     - gain e - loss_slack e s liab < h' * fone).
Proof.
  intros K O H Hh0 GP. apply liq_inv in H as (h1 & m & NE & LF & Hh & Hm & AP & CL & HA & HR). assert (h1 = h) as -> by congruence.
  apply (action_spec e (started s)) in HA as (h' & F); [|assumption|apply started_ok; assumption|assumption..].
  destruct F. destruct af_max as (B & ia & il & X1 & X2 & X3 & X4 & X5). exists B, ia, il, h'. do 5 (split; [assumption|]).
  destruct X5 as [X5|[X5|[X5|[X5|X5]]]]; [tauto..|]. do 4 right. specialize (X5 GP).
  change (loss_slack e (started s) liab) with (loss_slack e s liab) in *. set (l1 := loss_slack e s liab) in *. clearbody l1. lia.
Qed.
Print Assumptions C70_complete.

(** ** examples *)
Definition pct (n : Z) : fx := of_int n / 100.
Definition ex_tpos (n : Z) : tpos := mkTpos (of_int n / 1000000) 0.
Definition ex_lbank (p q : tpos) : bank :=
  set_totals ex_bank (Z.max (t_ix p) 0 + Z.max (t_ix q) 0) (Z.max (- t_ix p) 0 + Z.max (- t_ix q) 0) 0 0.
(** a token: maintenance weights, init weights, oracle price, balance *)
Definition ex_info (i maw iaw mlw ilw : Z) (price : fx) (b : bank) (p : tpos) : tinfo :=
  mkTI i (pct maw) (pct iaw) (pct iaw) (pct mlw) (pct ilw) (pct ilw) (mkPr price price) (native b p) true.
Definition ex_env (fee plat : Z) (iaw ilw : Z) (aop lop : fx) : lenv :=
  mkLE (mkLpar (pct fee) (pct plat) (pct iaw) (pct ilw) true) (mkLpar (pct fee) (pct plat) (pct iaw) (pct ilw) true)
    0 1 aop lop 50 (0, 0) (0, 0).
Definition ex_liq (a l : Z) (aop lop : fx) (maw iaw mlw ilw : Z) : lstate :=
  let ea := ex_tpos a in let el := ex_tpos (- l) in let z := mkTpos 0 0 in
  let ab := ex_lbank ea z in let lb := ex_lbank el z in
  mkLS (mkHC [ex_info 0 maw iaw mlw ilw aop ab ea; ex_info 1 maw iaw mlw ilw lop lb el] [] []) false ab lb ea el z z.
Ltac zc := first [apply Z.leb_le; vm_compute; reflexivity | apply Z.ltb_lt; vm_compute; reflexivity].
Ltac envok := unfold lenv_ok, lpar_ok; split; [split; [zc|split; [zc|split; [split; zc|zc]]]|]; (split; [split; [zc|split; [zc|split; [split; zc|zc]]]|]); split; zc.
Ltac stok := split; [cbn; repeat constructor; cbn; intuition discriminate|]; split; [constructor|]; split;
  [eexists; split; [left; reflexivity|]; repeat (split; [vm_compute; reflexivity|]); vm_compute; reflexivity|]; split;
  [eexists; split; [right; left; reflexivity|]; repeat (split; [vm_compute; reflexivity|]); vm_compute; reflexivity|];
  repeat (split; [zc|]); zc.
(** 100 tokens deposited, 90 borrowed, weights 0.9/0.8 and 1.1/1.2, fees 5% + 1%: 89 tokens are liquidated for almost
    all of the deposit, of which the bank keeps some *)
Example C69_example : let e := ex_env 5 1 80 120 fone fone in let s := ex_liq 100 90 fone fone 90 80 110 120 in
  lenv_ok e /\ lstate_ok e s /\ 0 < gain e /\
  exists s' liab to from h h', token_liq_with_token e s (of_int 95) false false (fun _ _ _ _ => 0) = Some (s', Some (liab, to, from)) /\
    of_int 88 < liab < of_int 89 /\ of_int 97 < to < of_int 99 /\ of_int 99 < from < of_int 100 /\
    Health.health (ls_cache s) HLiqEnd = Some h /\ Health.health (ls_cache s') HLiqEnd = Some h' /\ of_int (-29) < h < of_int (-27) /\
    of_int (-2) < h' < of_int (-1) /\ ls_flag s' = true.
Proof.
  cbv zeta. split; [envok|]. split; [stok|]. split; [zc|]. do 6 eexists. split; [vm_compute; reflexivity|].
  do 3 (split; [split; zc|]). do 2 (split; [vm_compute; reflexivity|]). do 2 (split; [split; zc|]). vm_compute. reflexivity.
Qed.

(** "a liquidation makes progress" is false: with fees of 25% and weights 0.9 and 1.1, which Bank::verify accepts, an
    account is liquidatable and has an asset to sell, but whatever amount is asked for, nothing is transferred *)
Theorem C70_progress_refuted : exists e s h m, lenv_ok e /\ lstate_ok e s /\
  Health.health (ls_cache s) HLiqEnd = Some h /\ Health.health (ls_cache s) HMaint = Some m /\ m < of_int (-5) /\ h < of_int (-5) /\
  of_int 99 < native (ls_abank s) (ls_ee_asset s) /\ native (ls_lbank s) (ls_ee_liab s) < of_int (-89) /\ lp_allow (le_a e) = true /\
  (exists s', token_liq_with_token e s (of_int 50) false false (fun _ _ _ _ => 0) = Some (s', Some (0, 0, 0))) /\
  forall mx lf rg hl s' liab to from, token_liq_with_token e s mx lf rg hl = Some (s', Some (liab, to, from)) -> liab = 0 /\ to = 0 /\ from = 0.
Proof.
  exists (ex_env 25 0 90 110 fone fone), (ex_liq 100 90 fone fone 90 90 110 110).
  exists (match Health.health (ls_cache (ex_liq 100 90 fone fone 90 90 110 110)) HLiqEnd with Some h => h | None => 0 end).
  exists (match Health.health (ls_cache (ex_liq 100 90 fone fone 90 90 110 110)) HMaint with Some h => h | None => 0 end).
  split; [envok|]. split; [stok|]. do 2 (split; [vm_compute; reflexivity|]). do 4 (split; [zc|]). split; [reflexivity|].
  split; [eexists; vm_compute; reflexivity|].
  intros mx lf rg hl s' liab to from H.
  refine (C70_no_gain _ _ _ _ _ _ _ _ _ _ _ _ _ H _ _ _); [envok|stok|vm_compute; reflexivity|zc|zc].
Qed.
Print Assumptions C70_progress_refuted.

(** "the liqee gives no more than it has" is false without the rounding term: with a liab token of a very low price the
    rounded price is too low by enough to leave a small borrow of the asset *)
Theorem C69_overdraw_refuted : exists e s s' liab to from, lenv_ok e /\ lstate_ok e s /\
  token_liq_with_token e s (of_int (2 * 10 ^ 15)) false false (fun _ _ _ _ => 0) = Some (s', Some (liab, to, from)) /\
  native (ls_abank s) (ls_ee_asset s) < from /\ native (ls_abank s') (ls_ee_asset s') < 0.
Proof.
  exists (ex_env 5 1 80 120 fone (fone / 1000000)), (ex_liq (10 ^ 9) (10 ^ 15) fone (fone / 1000000) 90 80 110 120).
  do 4 eexists. split; [envok|]. split; [stok|]. split; [vm_compute; reflexivity|]. split; zc.
Qed.
Print Assumptions C69_overdraw_refuted.
