(** Liquidating negative perp pnl, and bankruptcy of perp positions:
    instructions/perp_liq_negative_pnl_or_bankruptcy.rs.  The perp side is [liq_negative] of
    PerpMoney; here are the amounts taken from health, the token transfers, the liqee's health
    cache and the checks of the instruction.
    Left out: log messages, statistics, finding position slots; that liqor and liqee differ is
    built into the state. *)
From Coq Require Import List ZArith Lia Bool.
From Verif Require Import OrderTree Keys PerpTypes SettleLimit PerpMoney Interest Bank Health LiqState TokenLiq PerpLiqBase Fixed.
Import ListNotations.
Open Scope Z_scope.

(** what the instruction changes: the liqee's health cache and being-liquidated mark, the market,
    the perp positions of liqee and liqor, the settle bank and their positions in it, the
    insurance bank and the liqor's position in it ([None]: it is the settle bank), the tokens in
    the insurance vault *)
Record nstate := mkNS {
  ns_cache : cache; ns_flag : bool;
  ns_mk : market; ns_ee : position; ns_or : position;
  ns_bank : bank; ns_ee_tok : tpos; ns_or_tok : tpos;
  ns_ins : option (bank * tpos); ns_vault : Z }.
(** what it only reads: market settings, settle limit configuration, index of the settle token,
    settle limit of the liqee, oracle prices of the perp market, the settle and the insurance
    token, init weights of the settle bank, whether the market may use the insurance fund, time,
    the scaled init weights that the settle bank will have *)
Record nenv := mkNE {
  ne_par : bpar; ne_cfg : scfg; ne_settle : Z; ne_le : limits;
  ne_price : fx; ne_sprice : fx; ne_iprice : fx; ne_aw : fx; ne_lw : fx;
  ne_eligible : bool; ne_now : Z; ne_sw : fx * fx }.

(** :245-318 whether step 2 is reached: everything that could be settled was settled, and pnl is
    still negative *)
Definition bankruptcy_reached (mk : market) (c : scfg) (pe : position) (le : limits) (price max_settle : fx) (max_liab now : Z) : bool :=
  match update_settle_limit le c now with
  | None => false
  | Some le =>
      let pe := settle_funding pe mk in
      let pnl := unsettled_pnl pe mk price in
      let max_e := Z.max (Z.min max_settle (- apply_pnl_settle_limit pe le mk c pnl)) 0 in
      let s := Z.max (Z.min max_e (of_int max_liab)) 0 in
      (s =? max_e) && (pnl + s <? 0)
  end.

(** :218-425 [liquidation_action]; [health]: LiquidationEnd health before.  Step 1: :234-307, the
    amount for health: :322-342, insurance: :344-393, socialized loss: :395-407.  The vault
    transfer is at :128-135, the recomputed perp info at :192. *)
Definition neg_action (e : nenv) (s : nstate) (health : fx) (max_liab : Z) : option (nstate * liqneg) :=
  let* max_settle := perp_max_settle (ns_cache s) (ne_settle e) in
  let* B := balances (ns_cache s) HLiqEnd false in
  let* (i, _) := nth_info (ns_cache s) (ne_settle e) in
  let* for_health :=
    if bankruptcy_reached (ns_mk s) (ne_cfg e) (ns_ee s) (ne_le e) (ne_price e) max_settle max_liab (ne_now e)
    then spot_amount_given health (nth i B 0) (fmul (ne_sprice e) (ne_aw e)) (fmul (ne_sprice e) (ne_lw e))
    else Some 0 in
  let* r := liq_negative (ns_mk s) (ne_cfg e) (ns_ee s) (ne_le e) (ns_or s) (ne_price e) max_settle max_liab for_health
              (ne_sprice e) (ne_iprice e) (bp_fee (ne_par e)) (if ne_eligible e then ns_vault s else 0) (ne_now e) in
  let* (bk, et, ot, hc) :=
    if 0 <? ln_settled r then
      let* (bk, ot, _) := deposit (ns_bank s) (ns_or_tok s) (ln_settled r) (ne_now e) in
      let* (bk, et, _) := withdraw_without_fee bk (ns_ee_tok s) (ln_settled r) (ne_now e) in
      let* hc := adjust_token_balance (ns_cache s) (ne_settle e) (- ln_settled r) (ne_sw e) in
      Some (bk, et, ot, hc)
    else Some (ns_bank s, ns_ee_tok s, ns_or_tok s, ns_cache s) in
  let* (bk, ot, ins) :=
    if 0 <? ln_ins r then
      match ns_ins s with
      | None => let* (bk, ot, _) := deposit bk ot (of_int (ln_ins r)) (ne_now e) in Some (bk, ot, None)
      | Some (ib, it) => let* (ib, it, _) := deposit ib it (of_int (ln_ins r)) (ne_now e) in Some (bk, ot, Some (ib, it))
      end
    else Some (bk, ot, ns_ins s) in
  let* hc := recompute_perp hc (ln_liqee r) (ln_market r) (ne_settle e) (ne_par e) in
  Some (mkNS hc (ns_flag s) (ln_market r) (ln_liqee r) (ln_liqor r) bk et ot ins (ns_vault s - ln_ins r), r).

(** :18-215 the instruction.  [signed]: the signer is owner or delegate of the liqor;
    [liqor_flag]: the liqor is being liquidated; [region]: it is in a health region;
    [liqor_init]: its init health afterwards.  The second result is [None] when nothing was
    liquidated. *)
Definition perp_liq_negative (e : nenv) (s : nstate) (signed liqor_flag region : bool) (max_liab : Z)
  (liqor_init : nstate -> fx) : option (nstate * option liqneg) :=
  let* _ := guard signed in
  let* _ := guard (negb liqor_flag) in
  let* h := Health.health (ns_cache s) HLiqEnd in
  let* zp := spot_zip (ns_cache s) in
  let* _ := guard (after_phase2 (ns_cache s) zp) in
  let* m := Health.health (ns_cache s) HMaint in
  let with_flag (s : nstate) (f : bool) :=
    mkNS (ns_cache s) f (ns_mk s) (ns_ee s) (ns_or s) (ns_bank s) (ns_ee_tok s) (ns_or_tok s) (ns_ins s) (ns_vault s) in
  match check_liquidatable (ns_flag s) m h with
  | (Liquidatable, f) =>
      let* (s', r) := neg_action e (with_flag s f) h max_liab in
      let* h' := Health.health (ns_cache s') HLiqEnd in
      let s' := with_flag s' (recover (ns_flag s') h') in
      let* _ := guard (region || (0 <=? liqor_init s')) in
      Some (s', Some r)
  | (_, f) => Some (with_flag s f, None)
  end.
