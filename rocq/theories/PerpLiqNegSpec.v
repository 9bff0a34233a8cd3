(** Specification vocabulary for the liquidation of negative perp pnl. *)
From Coq Require Import List ZArith Bool.
From Verif Require Import PerpTypes SettleLimit PerpMoney PerpMoneySpec Bank Health TokenLiq TokenLiqSpec PerpLiqBase PerpLiqNeg Fixed.
Import ListNotations.
Open Scope Z_scope.

(** the price of a settle token with the liquidation fee *)
Definition fee_price (e : nenv) : fx := fmul (ne_sprice e) (fone + bp_fee (ne_par e)).
(** prices are positive, the insurance fund is not negative *)
Definition nenv_ok (e : nenv) : Prop := 0 < ne_iprice e /\ 0 < fee_price e /\ 0 <= ne_sprice e /\ 0 <= ne_aw e <= ne_lw e.
(** the insurance tokens this market may use *)
Definition cover_of (e : nenv) (s : nstate) : Z := if ne_eligible e then ns_vault s else 0.

(** the health cache shows the position of the liqee in this market, and the settle token with the
    price and the init weights of its bank *)
Record nstate_ok (e : nenv) (s : nstate) (t : tinfo) : Prop := mkNok {
  nk_orders : shown_orders (ns_cache s);
  nk_token : exists i, nth_info (ns_cache s) (ne_settle e) = Some (i, t);
  nk_weights : ti_init_aw t = ne_aw e /\ ti_init_lw t = ne_lw e /\ pr_oracle (ti_prices t) = ne_sprice e;
  nk_perp : exists i pr, perp_pos (hc_perps (ns_cache s)) (mk_index (ns_mk s)) = Some i /\
     nth_error (hc_perps (ns_cache s)) i = Some (new_pinfo (ns_ee s) (ns_mk s) (ne_settle e) (bp_init_aw (ne_par e)) (bp_init_lw (ne_par e))
       (bp_maint_ov (ne_par e)) (bp_init_ov (ne_par e)) pr);
  nk_maint : 0 <= ti_maint_aw t /\ 0 <= ti_maint_lw t;
  nk_vault : 0 <= ns_vault s }.

(** the maint health that counts only spot balances and positive perp pnl *)
Definition settle_health (hc : cache) : option fx :=
  match balances hc HMaint true with None => None | Some B => health_sum hc HMaint B end.
