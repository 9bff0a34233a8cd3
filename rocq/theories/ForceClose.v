(** Force-closing the borrows of a token: instructions/token_force_close_borrows_with_token.rs.
    As in TokenLiq, slots of positions, logs and statistics are left out. *)
From Coq Require Import List ZArith Lia Bool.
From Verif Require Import OrderTree Keys PerpTypes Interest Bank Health LiqState TokenLiq Fixed.
Import ListNotations.
Open Scope Z_scope.

(** :9-234.  [force]: the bank of the liability is in force-close mode (bank.rs [is_force_close]);
    [signed]: the signer is owner or delegate of the liqor (:28-33); [liqor_flag]: the liqor is being
    liquidated; [liqor_init]: its init health with the given positions.
    The liqee's health cache is built from scratch after the transfer (:190-192): it is the
    cache before with the two balances replaced. *)
Definition force_close_borrows (e : lenv) (s : lstate) (force signed liqor_flag : bool) (max_liab_transfer : Z)
  (liqor_init : bank -> bank -> tpos -> tpos -> fx) : option (lstate * (fx * fx * fx)) :=
  let* _ := guard (negb (le_ia e =? le_il e)) in
  let* _ := guard signed in
  let* _ := guard (negb liqor_flag) in
  let* _ := guard force in
  let* _ := guard (negb (borrows_reduce_only (ls_abank s))) in
  let total := fee_factor_total (le_a e) (le_l e) in
  let* _ := guard (fmul (lp_init_lw (le_a e)) total <=? lp_init_lw (le_l e)) in
  let a_native := native (ls_abank s) (ls_ee_asset s) in
  let l_native := native (ls_lbank s) (ls_ee_liab s) in
  let* _ := guard (l_native <? 0) in
  let or_native := native (ls_lbank s) (ls_or_liab s) in
  let* _ := guard (0 <? or_native) in
  let* _ := guard ((0 <=? max_liab_transfer) && (max_liab_transfer <=? U64_MAX)) in
  let liab := Z.max (Z.min (Z.min (of_int max_liab_transfer) (- l_native)) or_native) 0 in
  let* base := cdiv (fmul liab (le_lop e)) (le_aop e) in
  let to_liqor := fmul base (fee_factor_liqor (le_a e) (le_l e)) in
  let from_liqee := fmul base total in
  let fee := from_liqee - to_liqor in
  let ab := ls_abank s in
  let ab := set_totals ab (b_dep ab) (b_bor ab) (b_dust ab) (b_fees ab + fee) in
  let* (lb, ee_liab, _) := deposit_with_dusting (ls_lbank s) (ls_ee_liab s) liab (le_now e) in
  let* (lb, or_liab, r) := withdraw_with_fee lb (ls_or_liab s) liab (le_now e) in
  let* (ab, or_asset, _) := deposit ab (ls_or_asset s) to_liqor (le_now e) in
  let* (ab, ee_asset, _) := withdraw_without_fee_with_dusting ab (ls_ee_asset s) from_liqee (le_now e) in
  let* _ := guard (w_loan r =? 0) in
  let* hc := adjust_token_balance (ls_cache s) (le_il e) (native lb ee_liab - l_native) (le_swl e) in
  let* hc := adjust_token_balance hc (le_ia e) (native ab ee_asset - a_native) (le_swa e) in
  let* h := Health.health hc HLiqEnd in
  let* _ := guard (0 <=? liqor_init ab lb or_asset or_liab) in
  Some (mkLS hc (recover (ls_flag s) h) ab lb ee_asset ee_liab or_asset or_liab, (liab, to_liqor, from_liqee)).
