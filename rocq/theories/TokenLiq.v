(** Liquidating a borrow with a deposit: instructions/token_liq_with_token.rs.
    Not modelled here: finding free position slots (AccountSlots), the log events, the
    statistics counter [collected_liquidation_fees].  A position that becomes inactive is
    kept with zero shares; the instruction then removes it (:333-344). *)
From Coq Require Import List ZArith Lia Bool.
From Verif Require Import OrderTree Keys PerpTypes Interest Bank Health LiqState Fixed.
Import ListNotations.
Open Scope Z_scope.

(** the liquidation settings of a bank, bank.rs:95-106,219,465 *)
Record lpar := mkLpar {
  lp_fee : fx;            (* liquidation_fee *)
  lp_platform : fx;       (* platform_liquidation_fee *)
  lp_init_aw : fx;        (* init_asset_weight *)
  lp_init_lw : fx;        (* init_liab_weight *)
  lp_allow : bool }.      (* allows_asset_liquidation() *)

(** cache.rs:851-870 [adjust_token_balance]; [saw], [slw]: the scaled init weights that
    the changed bank gives *)
Definition set_spot (t : tinfo) (x saw slw : fx) : tinfo :=
  mkTI (ti_index t) (ti_maint_aw t) (ti_init_aw t) saw (ti_maint_lw t) (ti_init_lw t) slw (ti_prices t) x (ti_liq_ok t).
Fixpoint update_nth {A} (L : list A) (i : nat) (f : A -> A) : list A :=
  match L, i with
  | [], _ => []
  | x :: L', O => f x :: L'
  | x :: L', S i' => x :: update_nth L' i' f
  end.
Definition adjust_token_balance (hc : cache) (idx : Z) (change : fx) (sw : fx * fx) : option cache :=
  let* i := token_pos (hc_tokens hc) idx in
  Some (mkHC (update_nth (hc_tokens hc) i (fun t => set_spot t (ti_spot t - (- change)) (fst sw) (snd sw))) (hc_serum hc) (hc_perps hc)).

(** token_liq_with_token.rs:137-143 *)
Definition fee_factor_liqor (a l : lpar) : fx := fmul (fone + lp_fee l) (fone + lp_fee a).
Definition fee_factor_total (a l : lpar) : fx :=
  fmul (fone + lp_fee l + lp_platform l) (fone + lp_fee a + lp_platform a).

(** :185-225.  [aop], [lop]: oracle prices, [llep]: the price of a liability in
    LiquidationEnd health, [max_asset], [max_liab]: :170-181.
    Result: liab tokens to transfer, asset tokens to the liqor, asset tokens from the liqee. *)
Definition liq_amounts (a l : lpar) (aop lop llep health max_asset max_liab : fx) : option (fx * fx * fx) :=
  let lopa := fmul lop (fee_factor_total a l) in
  let* needed := cdiv (- health) (fmul llep (lp_init_lw l) - fmul lopa (lp_init_aw a)) in
  let* possible := cdiv (fmul max_asset aop) lopa in
  let liab := Z.max (Z.min (Z.min needed possible) max_liab) 0 in
  let* base := cdiv (fmul liab lop) aop in
  Some (liab, fmul base (fee_factor_liqor a l), fmul base (fee_factor_total a l)).

(** what the instruction reads and writes: liqee's cache and flag; the two banks; the
    positions of liqee and liqor *)
Record lstate := mkLS {
  ls_cache : cache; ls_flag : bool;
  ls_abank : bank; ls_lbank : bank;
  ls_ee_asset : tpos; ls_ee_liab : tpos;
  ls_or_asset : tpos; ls_or_liab : tpos }.
(** what it only reads: bank settings, token indexes, oracle prices, time, and the scaled
    init weights of the two banks after the change *)
Record lenv := mkLE {
  le_a : lpar; le_l : lpar; le_ia : Z; le_il : Z; le_aop : fx; le_lop : fx; le_now : Z;
  le_swa : fx * fx; le_swl : fx * fx }.

Definition nth_info (hc : cache) (idx : Z) : option (nat * tinfo) :=
  let* i := token_pos (hc_tokens hc) idx in let* t := nth_error (hc_tokens hc) i in Some (i, t).

(** :86-368 [liquidation_action] *)
Definition liquidation_action (e : lenv) (s : lstate) (health : fx) (max_liab_transfer : fx)
  : option (lstate * (fx * fx * fx)) :=
  let a_native := native (ls_abank s) (ls_ee_asset s) in
  let* _ := guard (0 <? a_native) in
  let* _ := guard (lp_allow (le_a e)) in
  let l_native := native (ls_lbank s) (ls_ee_liab s) in
  let* _ := guard (l_native <? 0) in
  let* (il, tl) := nth_info (ls_cache s) (le_il e) in
  let* (ia, ta) := nth_info (ls_cache s) (le_ia e) in
  let* B := balances (ls_cache s) HLiqEnd false in
  let max_liab := Z.max (Z.min (Z.min max_liab_transfer (- l_native)) (- nth il B 0)) 0 in
  let max_asset := Z.max (Z.min a_native (nth ia B 0)) 0 in
  let* _ := guard (0 <? max_liab) in
  let* _ := guard (0 <? max_asset) in
  let* _ := guard (asset_price (ti_prices ta) HLiqEnd =? le_aop e) in
  let* (liab, to_liqor, from_liqee) :=
    liq_amounts (le_a e) (le_l e) (le_aop e) (le_lop e) (liab_price (ti_prices tl) HLiqEnd) health max_asset max_liab in
  let fee := from_liqee - to_liqor in
  let ab := ls_abank s in
  let ab := set_totals ab (b_dep ab) (b_bor ab) (b_dust ab) (b_fees ab + fee) in
  let* (lb, ee_liab, _) := deposit_with_dusting (ls_lbank s) (ls_ee_liab s) liab (le_now e) in
  let* (lb, or_liab, _) := withdraw_with_fee lb (ls_or_liab s) liab (le_now e) in
  let* (ab, or_asset, _) := deposit ab (ls_or_asset s) to_liqor (le_now e) in
  let* (ab, ee_asset, _) := withdraw_without_fee_with_dusting ab (ls_ee_asset s) from_liqee (le_now e) in
  let* hc := adjust_token_balance (ls_cache s) (le_il e) (native lb ee_liab - l_native) (le_swl e) in
  let* hc := adjust_token_balance hc (le_ia e) (native ab ee_asset - a_native) (le_swa e) in
  let* h := Health.health hc HLiqEnd in
  Some (mkLS hc (recover (ls_flag s) h) ab lb ee_asset ee_liab or_asset or_liab, (liab, to_liqor, from_liqee)).

(** :13-84 [token_liq_with_token].  [liqor_flag]: the liqor is being liquidated; [region]: the
    liqor is in a health region; [liqor_init]: its init health with the given positions.
    The amounts are [None] when nothing was liquidated. *)
Definition token_liq_with_token (e : lenv) (s : lstate) (max_liab_transfer : fx)
  (liqor_flag region : bool) (liqor_init : bank -> bank -> tpos -> tpos -> fx) : option (lstate * option (fx * fx * fx)) :=
  let* _ := guard (negb (le_ia e =? le_il e)) in
  let* _ := guard (negb liqor_flag) in
  let* h := Health.health (ls_cache s) HLiqEnd in
  let* _ := guard (after_phase1 (ls_cache s)) in
  let* m := Health.health (ls_cache s) HMaint in
  match check_liquidatable (ls_flag s) m h with
  | (Liquidatable, f) =>
      let s := mkLS (ls_cache s) f (ls_abank s) (ls_lbank s) (ls_ee_asset s) (ls_ee_liab s) (ls_or_asset s) (ls_or_liab s) in
      let* (s', am) := liquidation_action e s h max_liab_transfer in
      let* _ := guard (region || (0 <=? liqor_init (ls_abank s') (ls_lbank s') (ls_or_asset s') (ls_or_liab s'))) in
      Some (s', Some am)
  | (_, f) =>
      let s := mkLS (ls_cache s) f (ls_abank s) (ls_lbank s) (ls_ee_asset s) (ls_ee_liab s) (ls_or_asset s) (ls_or_liab s) in
      Some (s, None)
  end.
