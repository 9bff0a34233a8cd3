(** The instruction perp_settle_fees as a whole (instructions/perp_settle_fees.rs): the amount
    ([settle_fees] of SettleLimit), the transfer of settle tokens, the health check.
    Left out: log messages, the statistics [perp_spot_transfers]. *)
From Coq Require Import List ZArith Lia Bool.
From Verif Require Import OrderTree Keys PerpTypes SettleLimit Interest Bank Health LiqState TokenLiq PerpLiqBase Scaling TokenMove SettleIx Fixed.
Import ListNotations.
Open Scope Z_scope.

(** bank, market, its settled fees ([fees_settled]), account, amount *)
Record fout := mkFO { fo_bank : bank; fo_mk : market; fo_fees : fx; fo_acct : sacct; fo_amount : fx }.
Definition with_market (e : senv) (mk : market) : senv :=
  mkXE mk (xe_par e) (xe_sc e) (xe_cfg e) (xe_price e) (xe_sprice e) (xe_now e).
(** :13-138; the amount of [settle_fees] is zero if and only if the instruction ends at :63 *)
Definition perp_settle_fees (e : senv) (b : bank) (a : sacct) (fees : fx) (max_amount : Z) : option fout :=
  let* _ := guard (existsb (fun pi => pi_market pi =? mk_index (xe_mk e)) (sa_P a)) in
  let* (p, l, mk, s) := settle_fees (xe_mk e) (xe_sc e) (sa_perp a) (sa_lim a) (xe_price e) max_amount in
  if s =? 0 then Some (mkFO b mk fees (with_settled a (p, l) (sa_tok a)) 0)
  else
    let* _ := guard (existsb (fun q => ti_index (pin_info q) =? wc_index (xe_cfg e)) (sa_L a)) in
    let* (b, t, _) := withdraw_without_fee b (sa_tok a) s (xe_now e) in
    let a := with_settled a (p, l) t in
    let* hc := acct_cache (with_market e mk) b a in
    let* h := health hc HInit in
    let* _ := guard (0 <=? h) in
    Some (mkFO b mk (fees + s) a s).
