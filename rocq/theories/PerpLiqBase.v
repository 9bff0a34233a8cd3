(** Liquidating the base position or the positive pnl of a perp position:
    instructions/perp_liq_base_or_positive_pnl.rs.  The trade and the pnl takeover themselves
    are [liq_base] of PerpMoney; here are the five steps that decide how much is moved, the
    token transfer, the liqee's health cache and the checks of the instruction.
    Left out: log messages (their numbers are used for nothing else), statistics, finding
    position slots. *)
From Coq Require Import List ZArith Lia Bool.
From Verif Require Import OrderTree Keys PerpTypes SettleLimit PerpMoney Interest Bank Health LiqState TokenLiq Fixed.
Import ListNotations.
Open Scope Z_scope.

(** the weights and fees of the perp market, perp_market.rs:88-193 *)
Record bpar := mkBP {
  bp_init_aw : fx;      (* init_base_asset_weight *)
  bp_init_lw : fx;      (* init_base_liab_weight *)
  bp_maint_ov : fx;     (* maint_overall_asset_weight *)
  bp_init_ov : fx;      (* init_overall_asset_weight *)
  bp_fee : fx;          (* base_liquidation_fee *)
  bp_plat : fx;         (* platform_liquidation_fee *)
  bp_pnl_fee : fx }.    (* positive_pnl_liquidation_fee *)

(** :334-338 the variables the steps update: base lots reduced, pnl transferred, and the
    projected unweighted health unsettled pnl, health and effective settle token balance *)
Record track := mkTk { tk_red : Z; tk_pnl : fx; tk_u : fx; tk_h : fx; tk_s : fx }.

(** [I80F48::MAX], [I80F48::from_num(-0.5)] (:533) *)
Definition FX_MAX : fx := 2 ^ 127 - 1.
Definition MINUS_HALF : fx := - 2 ^ 47.

(** :351-415 [reduce_base].  [None]: the unwrap panics (:366), the amount is no I80F48,
    division by zero, or the quotient does not fit into an i64 *)
Definition reduce_base (t : tinfo) (base max_base : Z) (limit expected actual per_lot : fx) (x : track) : option track :=
  let* need := spot_amount_given (tk_h x) (tk_s x) (asset_wp t HLiqEnd) (liab_wp t HLiqEnd) in
  let* _ := guard (need <=? FX_MAX) in
  let* q := cdiv (Z.min need limit) expected in
  let* n := chk_i64 (ceil_int q) in
  let lots := Z.max (Z.min (Z.min n (Z.abs base - tk_red x)) (Z.abs max_base - tk_red x)) 0 in
  let s' := tk_s x + fmul actual (of_int lots) in
  Some (mkTk (tk_red x + lots) (tk_pnl x) (tk_u x + fmul per_lot (of_int lots))
    (tk_h x - contribution t HLiqEnd (tk_s x) + contribution t HLiqEnd s') s').

(** :417-461 [settle_pnl] *)
Definition settle_step (t : tinfo) (max_pnl : fx) (per_settle : fx) (x : track) : option track :=
  let* need := spot_amount_given (tk_h x) (tk_s x) (asset_wp t HLiqEnd) (liab_wp t HLiqEnd) in
  let* q := cdiv need per_settle in
  let settle := Z.max (Z.min (Z.min q (max_pnl - tk_pnl x)) (tk_u x)) 0 in
  let s' := tk_s x + fmul settle per_settle in
  Some (mkTk (tk_red x) (tk_pnl x + settle) (tk_u x - settle)
    (tk_h x - contribution t HLiqEnd (tk_s x) + contribution t HLiqEnd s') s').

(** :463-545 the five steps; [gain]: settle token received per pnl settled (:325) *)
Definition step1 (t : tinfo) (base max_base : Z) (per_lot : fx) (x : track) : option track :=
  if tk_u x <? 0 then reduce_base t base max_base (- tk_u x) per_lot per_lot per_lot x else Some x.
Definition step24 (t : tinfo) (max_pnl gain overall : fx) (x : track) : option track :=
  if (0 <=? tk_u x) && (overall <? gain) then settle_step t max_pnl (gain - overall) x else Some x.
Definition step3 (t : tinfo) (base max_base : Z) (max_pnl per_lot gain overall : fx) (x : track) : option track :=
  if (0 <=? tk_u x) && (tk_pnl x <? max_pnl)
  then reduce_base t base max_base (max_pnl - tk_pnl x) (fmul per_lot gain) (fmul per_lot overall) per_lot x
  else Some x.
Definition step5 (t : tinfo) (base max_base : Z) (per_lot overall : fx) (x : track) : option track :=
  if (tk_h x <? MINUS_HALF) && (0 <? overall)
  then reduce_base t base max_base FX_MAX (fmul per_lot overall) (fmul per_lot overall) per_lot x
  else Some x.
Definition five_steps (t : tinfo) (base max_base : Z) (max_pnl per_lot gain overall : fx) (x : track) : option track :=
  let* x := step1 t base max_base per_lot x in
  let* x := step24 t max_pnl gain overall x in
  let* x := step3 t base max_base max_pnl per_lot gain overall x in
  let* x := step24 t max_pnl gain overall x in
  step5 t base max_base per_lot overall x.

(** :279-322: by how much each lot that the base position gets closer to zero raises the
    unweighted health unsettled pnl; [None]: wrong sign of [max_base], or the assert *)
Definition uhupnl_per_lot (par : bpar) (mk : market) (price : fx) (base max_base : Z) : option fx :=
  let lot := fmul (of_int (mk_bls mk)) price in
  let* _ := guard (if 0 <? base then 0 <=? max_base else max_base <=? 0) in
  let v := if 0 <? base then fmul lot (- bp_init_aw par + (fone - bp_fee par - bp_plat par))
           else fmul lot (bp_init_lw par - (fone + bp_fee par + bp_plat par)) in
  let* _ := guard (0 <? v) in
  Some v.

(** cache.rs:833-848 [perp_info], :907-919 [recompute_perp_info] *)
Definition perp_pos (P : list pinfo) (market : Z) : option nat := position_of (fun pi => pi_market pi =? market) P.
Definition recompute_perp (hc : cache) (p : position) (mk : market) (settle : Z) (par : bpar) : option cache :=
  let* i := perp_pos (hc_perps hc) (mk_index mk) in
  Some (mkHC (hc_tokens hc) (hc_serum hc)
    (update_nth (hc_perps hc) i (fun pi =>
       new_pinfo p mk settle (bp_init_aw par) (bp_init_lw par) (bp_maint_ov par) (bp_init_ov par) (pi_prices pi)))).

(** the liqee and what the instruction changes besides *)
Record bstate := mkBS {
  bs_cache : cache; bs_flag : bool;
  bs_mk : market; bs_ee : position; bs_or : position;
  bs_bank : bank; bs_ee_tok : tpos; bs_or_tok : tpos }.
(** what it only reads: market settings, settle limit configuration, index of the settle token,
    settle limits of liqee and liqor, the scaled init weights that the settle bank will have *)
Record benv := mkBE {
  be_par : bpar; be_cfg : scfg; be_settle : Z; be_le : limits; be_lo : limits; be_now : Z; be_sw : fx * fx }.

(** :202-681 [liquidation_action]; [health]: LiquidationEnd health before *)
Definition liq_action (e : benv) (s : bstate) (health : fx) (max_base : Z) (max_pnl : Z) : option (bstate * liqbase * fx) :=
  let par := be_par e in
  let base := p_base (bs_ee s) in
  let* B := balances (bs_cache s) HLiqEnd false in
  let* (i, t) := nth_info (bs_cache s) (be_settle e) in
  let* ip := perp_pos (hc_perps (bs_cache s)) (mk_index (bs_mk s)) in
  let* pi := nth_error (hc_perps (bs_cache s)) ip in
  let price := pr_oracle (pi_prices pi) in
  let* per_lot := uhupnl_per_lot par (bs_mk s) price base max_base in
  let gain := fone - bp_pnl_fee par in
  let* x := five_steps t base max_base (of_int max_pnl) per_lot gain (bp_init_ov par)
              (mkTk 0 0 (uhupnl pi HLiqEnd) health (nth i B 0)) in
  let* r := liq_base (bs_mk s) (be_cfg e) (bs_ee s) (be_le e) (bs_or s) (be_lo e) price (tk_red x) (tk_pnl x)
              (bp_fee par) (bp_plat par) (bp_pnl_fee par) (be_now e) in
  let* (bk, et, ot, hc) :=
    if 0 <? tk_pnl x then
      let* (bk, et, _) := deposit (bs_bank s) (bs_ee_tok s) (lb_token r) (be_now e) in
      let* (bk, ot, _) := withdraw_without_fee bk (bs_or_tok s) (lb_token r) (be_now e) in
      let* hc := adjust_token_balance (bs_cache s) (be_settle e) (lb_token r) (be_sw e) in
      Some (bk, et, ot, hc)
    else Some (bs_bank s, bs_ee_tok s, bs_or_tok s, bs_cache s) in
  let* hc := recompute_perp hc (lb_liqee r) (lb_market r) (be_settle e) par in
  Some (mkBS hc (bs_flag s) (lb_market r) (lb_liqee r) (lb_liqor r) bk et ot, r, tk_pnl x).

(** :23-200 the instruction.  [signed]: the signer is owner or delegate of the liqor;
    [liqor_flag]: the liqor is being liquidated; [region]: it is in a health region;
    [liqor_init]: its init health afterwards.  The second result is [None] when nothing was
    liquidated, else what was moved, with the pnl taken over. *)
Definition perp_liq_base (e : benv) (s : bstate) (signed liqor_flag region : bool) (max_base max_pnl : Z)
  (liqor_init : bstate -> fx) : option (bstate * option (liqbase * fx)) :=
  let max_base := Z.max max_base (i64_min + 1) in
  let* _ := guard signed in
  let* _ := guard (negb liqor_flag) in
  let* h := Health.health (bs_cache s) HLiqEnd in
  let* _ := guard (after_phase1 (bs_cache s)) in
  let* m := Health.health (bs_cache s) HMaint in
  let with_flag (s : bstate) (f : bool) :=
    mkBS (bs_cache s) f (bs_mk s) (bs_ee s) (bs_or s) (bs_bank s) (bs_ee_tok s) (bs_or_tok s) in
  match check_liquidatable (bs_flag s) m h with
  | (Liquidatable, f) =>
      let* (s', r, pnl) := liq_action e (with_flag s f) h max_base max_pnl in
      let* h' := Health.health (bs_cache s') HLiqEnd in
      let s' := with_flag s' (recover (bs_flag s') h') in
      let* _ := guard (h <=? h') in
      let* _ := guard (region || (0 <=? liqor_init s')) in
      Some (s', Some (r, pnl))
  | (_, f) => Some (with_flag s f, None)
  end.
