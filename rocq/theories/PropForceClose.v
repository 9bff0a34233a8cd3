(** C72: force-closing the borrows of a token that is being retired.  Public statements. *)
From Coq Require Import List ZArith Lia Bool.
From Verif Require Import OrderTree Keys PerpTypes Interest Bank BankFacts BankInv BankSystem Health HealthSpec HealthFacts HealthMore PropInterest PropBank
  LiqState TokenLiq TokenLiqSpec TokenLiqFacts PropTokenLiq ForceClose ForceCloseFacts Fixed.
Import ListNotations.
Open Scope Z_scope.

(** Only in force-close mode, only by the owner or delegate of a liqor that is not being liquidated itself, has a
    deposit of the token and ends with init health of at least zero; only against a borrow, and only with an asset
    that may be borrowed and whose weighted price including all fees is at most that of the closed borrow. *)
Theorem C72_conditions e s force signed liqor_flag mx liqor_init s' r :
  force_close_borrows e s force signed liqor_flag mx liqor_init = Some (s', r) ->
  force = true /\ signed = true /\ liqor_flag = false /\ le_ia e <> le_il e /\
  native (ls_lbank s) (ls_ee_liab s) < 0 /\ 0 < native (ls_lbank s) (ls_or_liab s) /\
  (b_reduce (ls_abank s) <> 1 /\ b_reduce (ls_abank s) <> 2) /\
  fmul (lp_init_lw (le_a e)) (fmul (fone + lp_fee (le_l e) + lp_platform (le_l e)) (fone + lp_fee (le_a e) + lp_platform (le_a e))) <= lp_init_lw (le_l e) /\
  0 <= liqor_init (ls_abank s') (ls_lbank s') (ls_or_asset s') (ls_or_liab s').
Proof.
  intros H. destruct r as [[L to] from]. apply fc_inv in H as (R & -> & -> & -> & HL). destruct R.
  do 3 (split; [reflexivity|]). do 3 (split; [assumption|]). split; [|split; assumption].
  clear - fr_mode. unfold borrows_reduce_only in fr_mode.
  apply orb_false_iff in fr_mode as [A B]. apply Z.eqb_neq in A, B. split; assumption.
Qed.
Print Assumptions C72_conditions.

(** The amounts: all of what was asked for, of the debt or of the liqor's deposit, whichever is least; the liqee gives the
    oracle value of it plus the fees of both tokens, the liqor gets its part, the bank the rest. *)
Theorem C72_amounts e s force signed liqor_flag mx liqor_init s' liab to from :
  lenv_ok e -> lstate_ok e s -> force_close_borrows e s force signed liqor_flag mx liqor_init = Some (s', (liab, to, from)) ->
  liab = Z.min (of_int mx) (Z.min (- native (ls_lbank s) (ls_ee_liab s)) (native (ls_lbank s) (ls_or_liab s))) /\
  0 <= to <= from /\ b_fees (ls_abank s') = b_fees (ls_abank s) + (from - to) /\ b_fees (ls_lbank s') = b_fees (ls_lbank s) /\
  (price_liqor e liab - (fone + le_aop e) * (fone + lp_fee (le_l e)) * (fone + lp_fee (le_a e)) - fone * (fone * le_aop e) - (liab * le_lop e) * fone
     <= to * le_aop e * (fone * fone) <= price_liqor e liab) /\
  (price_total e liab - (fone + le_aop e) * (fone + lp_fee (le_l e) + lp_platform (le_l e)) * (fone + lp_fee (le_a e) + lp_platform (le_a e)) - fone * (fone * le_aop e) - (liab * le_lop e) * fone
     <= from * le_aop e * (fone * fone) <= price_total e liab).
Proof.
  intros K O H. apply fc_inv in H as (R & _). pose proof (fc_money _ _ _ _ _ _ _ K O R) as (L1 & L2 & L3 & T & _ & _ & _ & _ & _ & _ & F1 & F2 & _).
  destruct K as ((A1 & A2 & A3 & A4) & (A5 & A6 & A7 & A8) & P1 & P2). destruct R.
  assert (fone <= fone + lp_fee (le_l e) /\ fone <= fone + lp_fee (le_a e)) as [X1 X2] by lia.
  assert (fone <= fone + lp_fee (le_l e) + lp_platform (le_l e) /\ fone <= fone + lp_fee (le_a e) + lp_platform (le_a e)) as [X3 X4] by lia.
  pose proof fone_pos as FP.
  assert (L0 : 0 <= liab) by lia.
  split. { assert (0 <= of_int mx) by (unfold of_int; nia). clear - fr_L fr_owes fr_has H. lia. }
  split; [exact T|]. split; [exact F1|]. split; [exact F2|]. split.
  - unfold price_liqor. assert (F : 0 <= fee_factor_liqor (le_a e) (le_l e)) by (apply fmul_nonneg; lia).
    apply price_bounds; try assumption; rewrite fr_to; [apply paid_upper|apply paid_lower]; assumption.
  - unfold price_total. assert (F : 0 <= fee_factor_total (le_a e) (le_l e)) by (apply fmul_nonneg; lia).
    apply price_bounds; try assumption; rewrite fr_from; [apply paid_upper|apply paid_lower]; assumption.
Qed.
Print Assumptions C72_amounts.

(** The balances move by these amounts, up to rounding and dust below one token. *)
Theorem C72_balances e s force signed liqor_flag mx liqor_init s' liab to from :
  lenv_ok e -> lstate_ok e s -> force_close_borrows e s force signed liqor_flag mx liqor_init = Some (s', (liab, to, from)) ->
  (liab - 2 < native (ls_lbank s') (ls_ee_liab s') - native (ls_lbank s) (ls_ee_liab s) < liab + ix_round (ls_lbank s)) /\
  (- from - fone - 2 < native (ls_abank s') (ls_ee_asset s') - native (ls_abank s) (ls_ee_asset s) < - from + ix_round (ls_abank s)) /\
  to - fone - 2 < native (ls_abank s') (ls_or_asset s') - native (ls_abank s) (ls_or_asset s) /\
  - liab - fone - 2 < native (ls_lbank s') (ls_or_liab s') - native (ls_lbank s) (ls_or_liab s).
Proof.
  intros K O H. apply fc_inv in H as (R & _). pose proof (fc_money _ _ _ _ _ _ _ K O R). tauto.
Qed.
Print Assumptions C72_balances.

(** The liqor pays from its deposit: it never ends up owing the token. *)
Theorem C72_no_borrow e s force signed liqor_flag mx liqor_init s' r :
  lenv_ok e -> lstate_ok e s -> force_close_borrows e s force signed liqor_flag mx liqor_init = Some (s', r) ->
  0 <= native (ls_lbank s') (ls_or_liab s').
Proof.
  intros K O H. destruct r as [[L to] from]. apply fc_inv in H as (R & _). pose proof (fc_money _ _ _ _ _ _ _ K O R) as (_ & _ & _ & _ & _ & _ & _ & _ & _ & X & _ & _ & M & _).
  destruct O as (_ & _ & _ & _ & _ & _ & I & _). destruct M as (_ & _ & _ & _ & M & _).
  unfold native. destruct (Z.ltb_spec 0 (t_ix (ls_or_liab s'))) as [P|P]; [apply fmul_nonneg; lia|].
  replace (t_ix (ls_or_liab s')) with 0 by lia. unfold fmul. rewrite Z.mul_0_l. rewrite Z.div_0_l by (pose proof fone_pos; lia). lia.
Qed.
Print Assumptions C72_no_borrow.

(** No tokens appear or vanish. *)
Theorem C72_conserved e s force signed liqor_flag mx liqor_init s' r :
  lenv_ok e -> lstate_ok e s -> force_close_borrows e s force signed liqor_flag mx liqor_init = Some (s', r) ->
  let A := ls_abank s in let A' := ls_abank s' in let Lb := ls_lbank s in let Lb' := ls_lbank s' in
  bank_moved A A' (ls_ee_asset s) (ls_ee_asset s') (ls_or_asset s) (ls_or_asset s') /\
  bank_moved Lb Lb' (ls_ee_liab s) (ls_ee_liab s') (ls_or_liab s) (ls_or_liab s') /\
  - 2 * fone < two_claims A' (ls_ee_asset s') (ls_or_asset s') - two_claims A (ls_ee_asset s) (ls_or_asset s) < 2 * Z.max (b_di A) (b_bi A) /\
  - 2 * fone < two_claims Lb' (ls_ee_liab s') (ls_or_liab s') - two_claims Lb (ls_ee_liab s) (ls_or_liab s) < 2 * Z.max (b_di Lb) (b_bi Lb).
Proof.
  intros K O H. destruct r as [[L to] from]. apply fc_inv in H as (R & _). pose proof (fc_money _ _ _ _ _ _ _ K O R). cbv zeta. tauto.
Qed.
Print Assumptions C72_conserved.

(** The liqee's liquidation-end health is not made worse, up to rounding: for an account with nothing reserved in
    spot orders, when the closed amount is at most what health counts as borrowed (spot balance plus perp pnl). *)
Theorem C72_health e s force signed liqor_flag mx liqor_init s' liab to from h B il :
  lenv_ok e -> lstate_ok e s -> no_reserved (ls_cache s) ->
  force_close_borrows e s force signed liqor_flag mx liqor_init = Some (s', (liab, to, from)) ->
  Health.health (ls_cache s) HLiqEnd = Some h -> balances (ls_cache s) HLiqEnd false = Some B ->
  token_pos (hc_tokens (ls_cache s)) (le_il e) = Some il -> liab <= - nth il B 0 ->
  exists h', Health.health (ls_cache s') HLiqEnd = Some h' /\ h * fone - force_slack e s liab <= h' * fone.
Proof.
  intros K O NR H. apply fc_inv in H as (R & _). exact (fc_health _ _ _ _ _ _ _ _ _ _ K O NR R).
Qed.
Print Assumptions C72_health.

(** The being-liquidated mark is never set here; it is removed exactly when the new liquidation-end health is above minus
    one native unit. *)
Theorem C72_flag e s force signed liqor_flag mx liqor_init s' r :
  force_close_borrows e s force signed liqor_flag mx liqor_init = Some (s', r) ->
  exists h', Health.health (ls_cache s') HLiqEnd = Some h' /\ (ls_flag s' = true <-> ls_flag s = true /\ h' <= - fone).
Proof.
  intros H. destruct r as [[L to] from]. apply fc_inv in H as (R & _). destruct (fr_ops _ _ _ _ _ _ _ R) as (lb1 & ab1 & w1 & w2 & w3 & w4 & hc1 & h' & _ & _ & _ & _ & _ & _ & _ & E & F).
  exists h'. split; [exact E|]. rewrite F. unfold recover. destruct (ls_flag s); cbn [andb]; destruct (Z.ltb_spec (- fone) h'); cbn [negb]; split; intros; try lia; try discriminate; try reflexivity;
  try (destruct H0; discriminate || lia). 
  all: try (split; [reflexivity|assumption]). all: destruct H as [H1 H2]; first [discriminate|lia].
Qed.
Print Assumptions C72_flag.

(** ** examples *)
Definition ex_fc (a l o : Z) (amlw ailw lmlw lilw : Z) (perps : list pinfo) : lstate :=
  let ea := ex_tpos a in let el := ex_tpos (- l) in let ol := ex_tpos o in let z := mkTpos 0 0 in
  let ab := ex_lbank ea z in let lb := ex_lbank el ol in
  mkLS (mkHC [ex_info 0 95 90 amlw ailw fone ab ea; ex_info 1 0 0 lmlw lilw fone lb el;
              ex_info 2 95 95 110 120 fone (ex_lbank (ex_tpos 100) z) (ex_tpos 100)] [] perps) false ab lb ea el z ol.
Definition ex_fce (fee plat ailw lilw : Z) : lenv :=
  mkLE (mkLpar (pct fee) (pct plat) (pct 90) (pct ailw) true) (mkLpar (pct fee) (pct plat) 0 (pct lilw) true) 0 1 fone fone 50
    (pct 90, pct ailw) (0, pct lilw).
Ltac shown t := eexists; split; [t; reflexivity|]; repeat (split; [vm_compute; reflexivity|]); vm_compute; reflexivity.
Ltac fcok := split; [vm_compute; apply NoDup_cons; [intros [X|[X|[]]]; discriminate|]; apply NoDup_cons; [intros [X|[]]; discriminate|]; apply NoDup_cons; [intros []|]; apply NoDup_nil|]; split; [exact (Forall_nil _)|]; split; [shown ltac:(left)|]; split; [shown ltac:(right; left)|]; repeat (split; [zc|]); zc.

(** a debt of 90 is closed with 60 from the deposit of the liqor, at fees of 2% + 1%, the liqee pays from a deposit of 50 and by
    borrowing the rest; its health goes up *)
Example C72_example : let e := ex_fce 2 1 105 125 in let s := ex_fc 50 90 60 102 105 110 125 [] in
  lenv_ok e /\ lstate_ok e s /\ no_reserved (ls_cache s) /\
  exists s' liab to from h h' B, force_close_borrows e s true true false 80 (fun _ _ _ _ => 0) = Some (s', (liab, to, from)) /\
    of_int 59 < liab <= of_int 60 /\ of_int 61 < to < of_int 63 /\ of_int 63 < from < of_int 64 /\
    native (ls_abank s') (ls_ee_asset s') < of_int (-13) /\
    Health.health (ls_cache s) HLiqEnd = Some h /\ balances (ls_cache s) HLiqEnd false = Some B /\
    token_pos (hc_tokens (ls_cache s)) (le_il e) = Some 1%nat /\ liab <= - nth 1 B 0 /\
    Health.health (ls_cache s') HLiqEnd = Some h' /\ h + of_int 10 < h' /\ force_slack e s liab < of_int 10 * fone.
Proof.
  cbv zeta. split; [envok|]. split; [fcok|]. split; [exact (Forall_nil _)|]. do 7 eexists. split; [vm_compute; reflexivity|].
  do 3 (split; [split; zc|]). split; [zc|]. do 3 (split; [vm_compute; reflexivity|]). split; [zc|]. split; [vm_compute; reflexivity|]. split; zc.
Qed.

(** "force-closing a borrow does not make the account liquidatable" is false: only the init weights are compared; with maintenance
    weights 1.05 of the closed borrow and 1.1 of the asset, the maintenance health of a healthy account falls below zero *)
Theorem C72_maint_refuted : exists e s s' liab to from m m', lenv_ok e /\ lstate_ok e s /\ no_reserved (ls_cache s) /\
  force_close_borrows e s true true false 90 (fun _ _ _ _ => 0) = Some (s', (liab, to, from)) /\
  Health.health (ls_cache s) HMaint = Some m /\ Health.health (ls_cache s') HMaint = Some m' /\ 0 < m /\ m' < of_int (-5).
Proof.
  exists (ex_fce 2 0 112 120), (ex_fc 0 90 100 110 112 105 120 []). do 6 eexists. split; [envok|]. split; [fcok|]. split; [exact (Forall_nil _)|].
  split; [vm_compute; reflexivity|]. do 2 (split; [vm_compute; reflexivity|]). split; zc.
Qed.
Print Assumptions C72_maint_refuted.

(** "the liqee's health does not decrease" is false when the pnl of a perp market settled in the closed token outweighs the borrow:
    the closed borrow did not count in health, what is paid for it does *)
Theorem C72_pnl_refuted : exists e s s' liab to from h h', lenv_ok e /\ lstate_ok e s /\ no_reserved (ls_cache s) /\
  force_close_borrows e s true true false 90 (fun _ _ _ _ => 0) = Some (s', (liab, to, from)) /\
  Health.health (ls_cache s) HLiqEnd = Some h /\ Health.health (ls_cache s') HLiqEnd = Some h' /\ 0 < h /\ h' < of_int (-5).
Proof.
  exists (ex_fce 2 0 112 120), (ex_fc 0 90 100 110 112 110 120 [mkPI 0 1 fone fone fone fone fone fone 1 0 0 0 (of_int 100) (mkPr fone fone) false false]).
  do 6 eexists. split; [envok|]. split; [fcok|]. split; [exact (Forall_nil _)|].
  split; [vm_compute; reflexivity|]. do 2 (split; [vm_compute; reflexivity|]). split; zc.
Qed.
Print Assumptions C72_pnl_refuted.
