(** Bankruptcy of a token borrow: instructions/token_liq_bankruptcy.rs, the whole
    instruction.  Not modelled here: finding position slots (AccountSlots), log events,
    which accounts are passed (Oracle), addresses of the vaults. *)
From Coq Require Import List ZArith Lia Bool.
From Verif Require Import OrderTree Keys PerpTypes Interest Bank BankSystem Health LiqState TokenLiq Fixed.
Import ListNotations.
Open Scope Z_scope.

(** what the instruction only reads: the liab bank's liquidation fee, the oracle prices of the
    liab token and, when that is another token, of the insurance token; whether the
    liab token may use the insurance fund (mint_info.rs:52-54); the liab token's index;
    the time; the scaled init weights of the liab bank afterwards *)
Record benv := mkBE {
  be_fee : fx; be_price : fx; be_ins_price : option fx; be_eligible : bool;
  be_il : Z; be_now : Z; be_sw : fx * fx }.
(** what it changes: liqee's health cache and flag; all banks of the liab token, of
    which the [bs_k]th is the one among the health accounts; the insurance token's bank (unused
    when that is the liab token); liqee's borrow; liqor's positions; tokens in the
    insurance vault *)
Record bstate := mkBS {
  bs_cache : cache; bs_flag : bool; bs_banks : list bank; bs_k : nat; bs_ins : bank;
  bs_ee : tpos; bs_or_ins : tpos; bs_or_liab : tpos; bs_vault : Z }.

(** :104-109 *)
Definition liab_to_insurance (e : benv) : option fx :=
  match be_ins_price e with
  | Some ip => cdiv (fmul (be_price e) (fone + be_fee e)) ip
  | None => Some fone
  end.

(** :99-135: insurance tokens paid, liab tokens repaid with them, is the fund exhausted; [loss]: :99.
    [to_num::<u64>] of a negative or too large number is a panic *)
Definition insurance_amounts (e : benv) (loss mx : fx) (vault : Z) : option (Z * fx * bool) :=
  let* f := liab_to_insurance e in
  let avail := if be_eligible e then vault else 0 in
  let c := ceil_int (fmul (Z.min loss mx) f) in
  let* _ := guard ((0 <=? c) && (c <? 2 ^ 64)) in
  let pay := Z.min c avail in
  let* liab := cdiv (of_int pay) f in
  Some (pay, liab, pay =? avail).

(** :137-227: the insurance payment.  [liqor_ok]: the liqor is in a health region or its init
    health with these positions is not negative.  Result: liab bank, insurance bank, liqee, liqor's
    insurance and liab positions. *)
Definition insure (e : benv) (lb ib : bank) (ee or_ins or_liab : tpos) (pay : Z) (liab : fx)
  (liqor_ok : bank -> bank -> tpos -> tpos -> bool) : option (bank * bank * tpos * tpos * tpos) :=
  let* (lb, ee, _) := deposit_with_dusting lb ee liab (be_now e) in
  match be_ins_price e with
  | Some _ =>
      let* (ib, or_ins, _) := deposit ib or_ins (of_int pay) (be_now e) in
      let* (lb, or_liab, _) := withdraw_with_fee lb or_liab liab (be_now e) in
      let* _ := guard (liqor_ok lb ib or_liab or_ins) in
      Some (lb, ib, ee, or_ins, or_liab)
  | None =>
      let* _ := guard (of_int pay =? liab) in
      Some (lb, ib, ee, or_ins, or_liab)
  end.

(** :16-320.  Result: the new state, insurance tokens paid, liab tokens repaid with them, loss
    put on the depositors *)
Definition token_liq_bankruptcy (e : benv) (s : bstate) (mx : fx) (liqor_flag : bool)
  (liqor_ok : bank -> bank -> tpos -> tpos -> bool) : option (bstate * (Z * fx * fx)) :=
  let* _ := guard (negb liqor_flag) in
  let* B := balances (bs_cache s) HLiqEnd false in
  let* _ := guard (after_phase2 (bs_cache s) (combine (hc_tokens (bs_cache s)) B)) in
  let* lb := nth_error (bs_banks s) (bs_k s) in
  let initial := native lb (bs_ee s) in
  let* il := token_pos (hc_tokens (bs_cache s)) (be_il e) in
  let* _ := guard (initial <? 0) in
  let* _ := guard (nth il B 0 <? 0) in
  let loss := Z.min (- initial) (- nth il B 0) in
  let* (pay, liab, exhausted) := insurance_amounts e loss mx (bs_vault s) in
  let* (lb1, ib1, ee1, or_ins1, or_liab1, loss1) :=
    if 0 <? pay then
      let* (lb1, ib1, ee1, oi1, ol1) := insure e lb (bs_ins s) (bs_ee s) (bs_or_ins s) (bs_or_liab s) pay liab liqor_ok in
      Some (lb1, ib1, ee1, oi1, ol1, loss - (native lb1 ee1 - initial))
    else Some (lb, bs_ins s, bs_ee s, bs_or_ins s, bs_or_liab s, loss) in
  let banks1 := set_nth (bs_banks s) (bs_k s) lb1 in
  let* (banks2, ee2, soc) :=
    if exhausted && (0 <? loss1) then
      let* (bs, p, _) := socialize banks1 (bs_k s) ee1 loss1 (be_now e) in Some (bs, p, loss1)
    else Some (banks1, ee1, 0) in
  let* b0 := nth_error banks2 0 in
  let* hc := adjust_token_balance (bs_cache s) (be_il e) (native b0 ee2 - initial) (be_sw e) in
  let* h := Health.health hc HLiqEnd in
  Some (mkBS hc (recover true h) banks2 (bs_k s) ib1 ee2 or_ins1 or_liab1 (bs_vault s - pay), (pay, liab, soc)).
