(** Specification vocabulary for spot liquidation. *)
From Coq Require Import List ZArith Bool.
From Verif Require Import Bank Health TokenLiq Fixed.
Import ListNotations.
Open Scope Z_scope.

(** settings as Bank::verify asks (bank.rs:389-434), and weights that count a deposit for at most
    and a borrow for at least its price; oracle prices are positive *)
Definition lpar_ok (p : lpar) : Prop :=
  0 <= lp_fee p /\ 0 <= lp_platform p /\ 0 <= lp_init_aw p <= fone /\ fone <= lp_init_lw p.
Definition lenv_ok (e : lenv) : Prop := lpar_ok (le_a e) /\ lpar_ok (le_l e) /\ 0 < le_aop e /\ 0 < le_lop e.

(** the health cache shows the position [p] in bank [b] with settings [par] and oracle price [price] *)
Definition shows (hc : cache) (idx : Z) (b : bank) (p : tpos) (par : lpar) (price : fx) : Prop :=
  exists t, In t (hc_tokens hc) /\ ti_index t = idx /\ ti_spot t = native b p /\
    ti_init_aw t = lp_init_aw par /\ ti_init_lw t = lp_init_lw par /\ pr_oracle (ti_prices t) = price.
(** spot markets as the cache shows them: made from open orders accounts *)
Definition shown_orders (hc : cache) : Prop :=
  Forall (fun s => exists oo ask bid q b m, 0 <= oo_base_free oo /\ 0 <= oo_quote_free oo /\ new_sinfo oo ask bid b q m = Some s) (hc_serum hc).
(** the cache of the liqee was built from the banks and positions of this state *)
Definition lstate_ok (e : lenv) (s : lstate) : Prop :=
  NoDup (map ti_index (hc_tokens (ls_cache s))) /\ shown_orders (ls_cache s) /\
  shows (ls_cache s) (le_ia e) (ls_abank s) (ls_ee_asset s) (le_a e) (le_aop e) /\
  shows (ls_cache s) (le_il e) (ls_lbank s) (ls_ee_liab s) (le_l e) (le_lop e) /\
  0 < b_di (ls_abank s) /\ 0 < b_bi (ls_abank s) /\ 0 < b_di (ls_lbank s) /\ 0 < b_bi (ls_lbank s) /\
  0 <= b_lof (ls_lbank s) /\ 0 <= b_lof (ls_abank s).

(** the liquidation price: what the liqee gives for [liab] tokens, and the part of it the liqor gets,
    times the asset price and 2^144 *)
Definition price_liqor (e : lenv) (liab : fx) : Z := liab * le_lop e * (fone + lp_fee (le_l e)) * (fone + lp_fee (le_a e)).
Definition price_total (e : lenv) (liab : fx) : Z :=
  liab * le_lop e * (fone + lp_fee (le_l e) + lp_platform (le_l e)) * (fone + lp_fee (le_a e) + lp_platform (le_a e)).

(** rounding of a balance by a bank operation, in units in the last place of a native amount *)
Definition ix_round (b : bank) : Z := 2 * (Z.max (b_di b) (b_bi b) / fone + 2).
(** the weighted price of a deposit of the asset, of a borrow of it, of a borrow of the liability *)
Definition asset_price_w (e : lenv) : fx := fmul (lp_init_aw (le_a e)) (le_aop e).
Definition asset_debt_w (e : lenv) : fx := fmul (lp_init_lw (le_a e)) (le_aop e).
Definition liab_price_w (e : lenv) : fx := fmul (lp_init_lw (le_l e)) (le_lop e).
(** the health gained per liab token *)
Definition gain (e : lenv) : fx :=
  fmul (le_lop e) (lp_init_lw (le_l e)) - fmul (fmul (le_lop e) (fee_factor_total (le_a e) (le_l e))) (lp_init_aw (le_a e)).
(** rounding errors of the liqee's health, times 2^96: shares are whole numbers, the deposit that is left over
    is taken as dust when it is below one token, prices and products are rounded *)
Definition loss_slack (e : lenv) (s : lstate) (liab : fx) : Z :=
  2 * liab + (ix_round (ls_lbank s) + 2) * liab_price_w e + (liab / le_aop e + 2 * fone + 4) * asset_debt_w e + 2 * fone.
Definition gain_slack (e : lenv) (s : lstate) (from : fx) : Z :=
  ix_round (ls_lbank s) * liab_price_w e + ix_round (ls_abank s) * asset_price_w e +
  (fone + le_aop e) * fee_factor_total (le_a e) (le_l e) / fone + le_aop e + from + 3 * fone.

(** what a position is worth in native tokens, times 2^96 *)
Definition claim (b : bank) (p : tpos) : Z := t_ix p * (if t_ix p <? 0 then b_bi b else b_di b).
(** claims of two accounts, fees and dust in a bank *)
Definition two_claims (b : bank) (p q : tpos) : Z := claim b p + claim b q + (b_dust b + b_fees b) * fone.
(** the shares that the bank counts are moved with the positions, nothing else in it changes but dust, fees and the
    net borrows *)
Definition bank_moved (b b' : bank) (p p' q q' : tpos) : Prop :=
  b_dep b' - b_dep b = (Z.max (t_ix p') 0 - Z.max (t_ix p) 0) + (Z.max (t_ix q') 0 - Z.max (t_ix q) 0) /\
  b_bor b' - b_bor b = (Z.max (- t_ix p') 0 - Z.max (- t_ix p) 0) + (Z.max (- t_ix q') 0 - Z.max (- t_ix q) 0) /\
  t_use p' = t_use p /\ t_use q' = t_use q /\ b_di b' = b_di b /\ b_bi b' = b_bi b /\ b_fw b' = b_fw b.
