(** Init weights scaled by the deposits and borrows of a bank, state/bank.rs:1226-1265, and the
    token infos of the health cache, health/cache.rs:850-868, :1307-1331.
    Doubles are exact dyadic numbers rounded to 53 bits, without overflow; values in quote are
    integers in units of 2^-96.  The start values of the scaling are multiples of 2^-96 (every
    double from 2^-44 on is). *)
From Coq Require Import List ZArith Lia Bool.
From Verif Require Import Interest Bank Health Fixed.
Import ListNotations.
Open Scope Z_scope.

(** settings of a bank for health: token index, weights ([maint_weights(now)] for maint), start of
    scaling for deposits and borrows ([None]: f64::MAX, no scaling), [allows_asset_liquidation] *)
Record wcfg := mkWC {
  wc_index : Z; wc_maint_aw : fx; wc_init_aw : fx; wc_maint_lw : fx; wc_init_lw : fx;
  wc_dep_start : option Z; wc_bor_start : option Z; wc_liq_ok : bool }.

(** a / b of doubles, [I80F48::from_num]; [None]: does not fit *)
Definition quot_fx (a b : Z) : option fx :=
  if a =? 0 then Some 0
  else
    let '(m, s) := f64_quot a b in
    let r := if s <=? 48 then m * 2 ^ (48 - s) else rne m (2 ^ (s - 48)) in
    if r <? 2 ^ 127 then Some r else None.

(** bank.rs:1236-1238: deposits and tokens in spot orders, in quote *)
Definition deposits_quote (b : bank) (price : fx) : Z :=
  f64_round (f64_round (f64_round (native_deposits b) + f64_round (of_int (b_serum b))) * f64_round price).
(** bank.rs:1253 *)
Definition borrows_quote (b : bank) (price : fx) : Z :=
  f64_round (f64_round (native_borrows b) * f64_round price).
(** bank.rs:1232-1246 *)
Definition scaled_init_asset_weight (c : wcfg) (b : bank) (price : fx) : option fx :=
  match wc_dep_start c with
  | None => Some (wc_init_aw c)
  | Some start =>
      if deposits_quote b price <=? start then Some (wc_init_aw c)
      else option_map (fmul (wc_init_aw c)) (quot_fx start (deposits_quote b price))
  end.
(** bank.rs:1249-1265 *)
Definition scaled_init_liab_weight (c : wcfg) (b : bank) (price : fx) : option fx :=
  match wc_bor_start c with
  | None => Some (wc_init_lw c)
  | Some start =>
      if borrows_quote b price <=? start then Some (wc_init_lw c)
      else if start =? 0 then Some fx_max
      else option_map (fmul (wc_init_lw c)) (quot_fx (borrows_quote b price) start)
  end.

(** cache.rs:1307-1331: the token info of a position, when the cache is built *)
Definition token_info (c : wcfg) (b : bank) (pr : prices) (native : fx) : option tinfo :=
  let* aw := scaled_init_asset_weight c b (liab_price pr HInit) in
  let* lw := scaled_init_liab_weight c b (liab_price pr HInit) in
  Some (mkTI (wc_index c) (wc_maint_aw c) (wc_init_aw c) aw (wc_maint_lw c) (wc_init_lw c) lw pr native (wc_liq_ok c)).
(** cache.rs:856-860 [adjust_token_balance]: the scaled weights it sets *)
Definition adjusted_weights (c : wcfg) (b : bank) (pr : prices) : option (fx * fx) :=
  let* aw := scaled_init_asset_weight c b (asset_price pr HInit) in
  let* lw := scaled_init_liab_weight c b (liab_price pr HInit) in
  Some (aw, lw).
