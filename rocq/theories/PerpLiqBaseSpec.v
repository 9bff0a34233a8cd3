(** Specification vocabulary for the liquidation of perp base positions. *)
From Coq Require Import List ZArith Bool.
From Verif Require Import PerpTypes SettleLimit PerpMoney PerpMoneySpec Bank Health TokenLiq TokenLiqSpec PerpLiqBase Fixed.
Import ListNotations.
Open Scope Z_scope.

(** what a lot less in the base position adds to the health of a position, before the overall
    weight of the market and in settle tokens: a long lot counts for its asset weight and is sold
    at the price less fees, a short lot counts for its liability weight and is bought at the price
    plus fees *)
Definition lot_gain (par : bpar) (bls : Z) (price : fx) (base : Z) : fx :=
  bls * price * (if 0 <? base then fone - bp_fee par - bp_plat par - bp_init_aw par
                 else bp_init_lw par - (fone + bp_fee par + bp_plat par)) / fone.
(** the health of a unit of settle token debt *)
Definition settle_price (t : tinfo) : fx := fmul (ti_init_lw t) (pr_oracle (ti_prices t)).

(** market settings: the overall weight is at most what a unit of pnl gives when it is taken over,
    fees are not negative *)
Definition bpar_ok (par : bpar) : Prop :=
  0 <= bp_init_ov par /\ bp_init_ov par <= fone - bp_pnl_fee par /\ 0 <= bp_pnl_fee par /\ 0 <= bp_fee par /\ 0 <= bp_plat par /\
  0 <= bp_init_aw par /\ 0 <= bp_init_lw par.

(** the health cache shows the position of the liqee in this market, at oracle price [price], and
    the settle token *)
Record bstate_ok (e : benv) (s : bstate) (t : tinfo) (price : fx) : Prop := mkBok {
  ok_orders : shown_orders (bs_cache s);
  ok_token : exists i, nth_info (bs_cache s) (be_settle e) = Some (i, t);
  ok_weights : 0 <= ti_init_aw t <= ti_init_lw t /\ 0 <= pr_oracle (ti_prices t);
  ok_perp : exists i pr, perp_pos (hc_perps (bs_cache s)) (mk_index (bs_mk s)) = Some i /\ pr_oracle pr = price /\
     nth_error (hc_perps (bs_cache s)) i = Some (new_pinfo (bs_ee s) (bs_mk s) (be_settle e) (bp_init_aw (be_par e)) (bp_init_lw (be_par e))
       (bp_maint_ov (be_par e)) (bp_init_ov (be_par e)) pr);
  ok_price : 0 <= price /\ 0 <= mk_bls (bs_mk s);
  ok_base : - 2 ^ 63 < p_base (bs_ee s) < 2 ^ 63 }.

(** one lot is worth less than 2^46 native units of health *)
Definition lots_small (par : bpar) (mk : market) (price : fx) (base : Z) (t : tinfo) : Prop :=
  settle_price t * (lot_gain par (mk_bls mk) price base + 3 * fone) <= 2 ^ 46 * fone * fone.

(** what health counts for a position without orders before the overall weight, in settle tokens:
    its quote with the funding it owes, and its base at the price, weighted *)
Definition pos_health (par : bpar) (mk : market) (p : position) (price : fx) : fx :=
  after_funding mk p + fmul (p_base p * mk_bls mk * (if p_base p <? 0 then bp_init_lw par else bp_init_aw par)) price.
