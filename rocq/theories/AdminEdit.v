(** Edits of settings by the group admin and the security admin:
    instructions/token_edit.rs, perp_edit_market.rs, serum3_edit_market.rs; listing tokens:
    token_register.rs, token_register_trustless.rs, token_add_bank.rs; Bank::verify and
    Bank::from_existing_bank, state/bank.rs:303-436; what token_update_index_and_rate.rs does
    to settings.
    Not modelled: account constraints (all accounts belong to the group; the banks passed are
    exactly the banks of the mint info, in order, state/mint_info.rs:75-83), and what is logged. *)
From Coq Require Import List ZArith Lia Bool.
From Verif Require Import Bank Health LiqState Fixed.
Import ListNotations.
Open Scope Z_scope.

(** f32 and f64 values: not a number, infinite, or a multiple of 2^-1074.  Rounding when a
    double is computed is not modelled here: the doubles are given. *)
Inductive flt := FNan | FInf (negative : bool) | FFin (units : Z).
Definition f_int (n : Z) : flt := FFin (n * 2 ^ 1074).
Definition f_frac (a b : Z) : flt := FFin (a * 2 ^ 1074 / b).
Definition f_zero : flt := FFin 0.
Definition f_one : flt := FFin (2 ^ 1074).
(** [a < b]: false if one is not a number; [require_gte!(a, b)] fails if [a < b],
    [require_gt!(a, b)] if [a <= b] *)
Definition flt_lt (a b : flt) : bool :=
  match a, b with
  | FFin x, FFin y => x <? y
  | FInf s, FInf t => s && negb t
  | FInf s, FFin _ => s
  | FFin _, FInf t => negb t
  | _, _ => false
  end.
Definition flt_le (a b : flt) : bool :=
  match a, b with
  | FFin x, FFin y => x <=? y
  | FInf s, FInf t => s || negb t
  | FInf s, FFin _ => s
  | FFin _, FInf t => negb t
  | _, _ => false
  end.
(** [f != 0.0] *)
Definition flt_nonzero (f : flt) : bool := match f with FFin 0 => false | _ => true end.
(** [I80F48::from_num(f)]: nearest, ties to even; panics if it is not a number or does not fit *)
Definition from_num (f : flt) : option fx :=
  match f with
  | FFin u => let r := Z.sgn u * rne (Z.abs u) (2 ^ 1026) in
              if (- 2 ^ 127 <=? r) && (r <? 2 ^ 127) then Some r else None
  | _ => None
  end.
(** a decimal literal as I80F48 *)
Definition dec (a b : Z) : fx := rne (a * fone) b.
Definition given {A} (o : option A) : bool := match o with Some _ => true | None => false end.
Definition opt {A} (o : option A) (d : A) : A := match o with Some x => x | None => d end.
Definition num_opt (o : option flt) (d : fx) : option fx := match o with Some f => from_num f | None => Some d end.
Definition nneg_opt (o : option flt) : bool := match o with Some f => negb (flt_lt f f_zero) | None => true end.

(** ** banks of a token, state/bank.rs:24-228: the settings, that is all fields but names
    of accounts, indexes, amounts and times *)
Record tset := mkSet {
  s_oracle : Z; (* oracle *)
  s_conf : fx; (* oracle_config.conf_filter *)
  s_stale : Z; (* oracle_config.max_staleness_slots, -1: no limit *)
  s_fallback : Z; (* fallback_oracle *)
  s_sp : Z; (* the prices of stable_price_model, opaque *)
  s_sp_interval : Z; (* stable_price_model.delay_interval_seconds *)
  s_sp_dgl : flt; (* stable_price_model.delay_growth_limit *)
  s_sp_gl : flt; (* stable_price_model.stable_growth_limit *)
  s_adj : fx; (* adjustment_factor *)
  s_util0 : fx; (* util0 *)
  s_rate0 : fx; (* rate0 *)
  s_util1 : fx; (* util1 *)
  s_rate1 : fx; (* rate1 *)
  s_maxr : fx; (* max_rate *)
  s_orig : fx; (* loan_origination_fee_rate *)
  s_loan : fx; (* loan_fee_rate *)
  s_maw : fx; (* maint_asset_weight *)
  s_iaw : fx; (* init_asset_weight *)
  s_mlw : fx; (* maint_liab_weight *)
  s_ilw : fx; (* init_liab_weight *)
  s_liqfee : fx; (* liquidation_fee *)
  s_minvault : flt; (* min_vault_to_deposits_ratio *)
  s_nbl : Z; (* net_borrow_limit_per_window_quote *)
  s_nbw : Z; (* net_borrow_limit_window_size_ts *)
  s_bscale : flt; (* borrow_weight_scale_start_quote *)
  s_dscale : flt; (* deposit_weight_scale_start_quote *)
  s_ro : Z; (* reduce_only *)
  s_name : Z; (* name, opaque *)
  s_tier : Z; (* tier, opaque *)
  s_fc : bool; (* force_close *)
  s_tcst : flt; (* token_conditional_swap_taker_fee_rate *)
  s_tcsm : flt; (* token_conditional_swap_maker_fee_rate *)
  s_flash : flt; (* flash_loan_swap_fee_rate *)
  s_curve : flt; (* interest_curve_scaling *)
  s_tutil : flt; (* interest_target_utilization *)
  s_shift : shift; (* maint_weight_shift_* *)
  s_dlimit : Z; (* deposit_limit *)
  s_zero : fx; (* zero_util_rate *)
  s_plat : fx; (* platform_liquidation_fee *)
  s_dis : bool; (* disable_asset_liquidation *)
  s_cfee : flt; (* collateral_fee_per_day *)
  s_fw : bool }. (* force_withdraw *)

(** bank.rs:389-436 *)
Definition verify (s : tset) : bool :=
  (0 <=? s_conf s) && (0 <=? s_util0 s) && (s_util0 s <=? s_util1 s) && (s_util1 s <=? fone) &&
  (0 <=? s_rate0 s) && (0 <=? s_rate1 s) && (0 <=? s_maxr s) && (0 <=? s_adj s) && (0 <=? s_loan s) && (0 <=? s_orig s) &&
  negb (flt_lt (s_sp_dgl s) f_zero) && negb (flt_lt (s_sp_gl s) f_zero) &&
  (0 <=? s_iaw s) && (s_iaw s <=? s_maw s) && (0 <=? s_mlw s) && (s_mlw s <=? s_ilw s) && (0 <=? s_liqfee s) &&
  negb (flt_lt (s_minvault s) f_zero) && negb (flt_lt f_one (s_minvault s)) && (-1 <=? s_nbl s) &&
  negb (flt_le (s_bscale s) f_zero) && negb (flt_le (s_dscale s) f_zero) && (s_ro s <=? 2) &&
  negb (flt_lt (s_tcst s) f_zero) && negb (flt_lt (s_tcsm s) f_zero) && negb (flt_lt (s_flash s) f_zero) &&
  negb (flt_lt (s_curve s) f_one) && negb (flt_lt (s_tutil s) f_zero) && negb (flt_lt f_one (s_tutil s)) &&
  (0 <=? sh_inv (s_shift s)) && (0 <=? sh_asset (s_shift s)) && (0 <=? sh_liab (s_shift s)) &&
  (0 <=? s_zero s) && (0 <=? s_plat s) &&
  (negb (s_dis s) || (((s_ro s =? 1) || (s_ro s =? 2)) && (s_maw s =? 0))) &&
  negb (flt_lt (s_cfee s) f_zero) &&
  (negb (s_fw s) || ((s_ro s =? 1) && s_dis s && (s_maw s =? 0))).

(** what the instruction is called with: the clock, the signer and the admins of the group,
    the state of the stable price after a reset ([None]: the oracle account is not the bank's,
    or cannot be read), and whether the fallback oracle account is of a known kind *)
Record env := mkEnv { e_now : Z; e_signer : Z; e_admin : Z; e_security : Z; e_reset : option Z; e_fallback_ok : bool }.
(** token_edit.rs:16-59: the arguments.  [p_fallback]: the fallback oracle account, if
    [set_fallback_oracle]; [p_conf]: OracleConfigParams *)
Record params := mkParams {
  p_oracle : option Z;
  p_conf : option (flt * option Z);
  p_insurance : option bool;
  p_rates : option (flt * flt * flt * flt * flt * flt);
  p_loan : option flt;
  p_orig : option flt;
  p_maw : option flt;
  p_iaw : option flt;
  p_mlw : option flt;
  p_ilw : option flt;
  p_liqfee : option flt;
  p_sp_interval : option Z;
  p_sp_dgl : option flt;
  p_sp_gl : option flt;
  p_minvault : option flt;
  p_nbl : option Z;
  p_nbw : option Z;
  p_bscale : option flt;
  p_dscale : option flt;
  p_ro : option Z;
  p_name : option Z;
  p_fc : option bool;
  p_tcst : option flt;
  p_tcsm : option flt;
  p_flash : option flt;
  p_curve : option flt;
  p_tutil : option flt;
  p_sh_start : option Z;
  p_sh_end : option Z;
  p_sh_asset : option flt;
  p_sh_liab : option flt;
  p_dlimit : option Z;
  p_zero : option flt;
  p_plat : option flt;
  p_dis : option bool;
  p_cfee : option flt;
  p_fw : option bool;
  p_tier : option Z;
  p_fallback : option Z;
  p_reset_sp : bool;
  p_reset_nb : bool;
  p_abort : bool }.

(** whether the full admin is needed: everywhere in token_edit.rs:70-508 *)
Definition needs_admin (p : params) (s : tset) : bool :=
  given (p_oracle p) || given (p_conf p) || given (p_insurance p) || given (p_rates p) || given (p_loan p) || given (p_orig p) || given (p_maw p) || given (p_mlw p) || given (p_ilw p) || given (p_liqfee p) ||
  given (p_sp_interval p) || given (p_sp_dgl p) || given (p_sp_gl p) || given (p_minvault p) || given (p_nbl p) || given (p_nbw p) || given (p_bscale p) || given (p_dscale p) || given (p_name p) ||
  given (p_fc p) || given (p_tcst p) || given (p_tcsm p) || given (p_flash p) || given (p_curve p) || given (p_tutil p) || given (p_sh_start p) || given (p_sh_end p) || given (p_sh_asset p) || given (p_sh_liab p) ||
  given (p_dlimit p) || given (p_zero p) || given (p_dis p) || given (p_fw p) || given (p_tier p) || given (p_fallback p) || p_reset_sp p || p_reset_nb p ||
  match p_iaw p with Some f => flt_nonzero f | None => false end ||
  match p_ro p with Some r => (r =? 0) || ((r =? 2) && (s_ro s =? 1)) | None => false end ||
  match p_plat p with Some f => flt_nonzero f | None => false end ||
  match p_cfee p with Some f => flt_nonzero f | None => false end.
(** token_edit.rs:70-508, for one bank: the new settings, and whether the full admin is
    needed.  The order of the checks and of independent assignments does not matter, because
    a failure aborts the instruction.  [reset_net_borrow_limit] (:283-288) changes counters
    that are not settings. *)
Definition edit_one (e : env) (p : params) (s : tset) : option (tset * bool) :=
  if negb (nneg_opt (p_iaw p) && nneg_opt (p_tcst p) && nneg_opt (p_tcsm p) && nneg_opt (p_flash p) && nneg_opt (p_tutil p)
           && (match p_curve p with Some c => negb (flt_lt c f_one) | None => true end)
           && (negb (given (p_fallback p)) || e_fallback_ok e)) then None
  else
    let* conf := match p_conf p with Some (c, _) => from_num c | None => Some (s_conf s) end in
    let* sp := if p_reset_sp p then e_reset e else Some (s_sp s) in
    let* rates := match p_rates p with
                  | Some (a, b, c, d, f, g) =>
                      let* a' := from_num a in let* b' := from_num b in let* c' := from_num c in
                      let* d' := from_num d in let* f' := from_num f in let* g' := from_num g in
                      Some (a', b', c', d', f', g')
                  | None => Some (s_adj s, s_util0 s, s_rate0 s, s_util1 s, s_rate1 s, s_maxr s)
                  end in
    let '(adj, util0, rate0, util1, rate1, maxr) := rates in
    let* loan := num_opt (p_loan p) (s_loan s) in
    let* orig := num_opt (p_orig p) (s_orig s) in
    let* maw0 := num_opt (p_maw p) (s_maw s) in
    let* iaw := num_opt (p_iaw p) (s_iaw s) in
    let* mlw0 := num_opt (p_mlw p) (s_mlw s) in
    let* ilw := num_opt (p_ilw p) (s_ilw s) in
    let* liqfee := num_opt (p_liqfee p) (s_liqfee s) in
    let* zero := num_opt (p_zero p) (s_zero s) in
    let* plat := num_opt (p_plat p) (s_plat s) in
    let ro := opt (p_ro p) (s_ro s) in
    if match p_fc p with Some true => ro <=? 0 | _ => false end then None
    else
      let '(maw, mlw) := if p_abort p then maint_weights maw0 mlw0 (s_shift s) (e_now e) else (maw0, mlw0) in
      let sh0 := if p_abort p then mkShift 0 0 0 0 0 else s_shift s in
      let* sh_a := num_opt (p_sh_asset p) (sh_asset sh0) in
      let* sh_l := num_opt (p_sh_liab p) (sh_liab sh0) in
      let st := opt (p_sh_start p) (sh_start sh0) in
      let en := opt (p_sh_end p) (sh_end sh0) in
      let inv := if given (p_sh_start p) || given (p_sh_end p) then shift_inv st en else sh_inv sh0 in
      let stale := match p_conf p with Some (_, m) => opt m (-1) | None => s_stale s end in
      Some (
        mkSet (opt (p_oracle p) (s_oracle s)) conf stale (opt (p_fallback p) (s_fallback s)) sp (opt (p_sp_interval p) (s_sp_interval s))
        (opt (p_sp_dgl p) (s_sp_dgl s)) (opt (p_sp_gl p) (s_sp_gl s)) adj util0 rate0 util1 rate1 maxr orig loan maw iaw mlw ilw liqfee
        (opt (p_minvault p) (s_minvault s)) (opt (p_nbl p) (s_nbl s)) (opt (p_nbw p) (s_nbw s)) (opt (p_bscale p) (s_bscale s)) (opt
        (p_dscale p) (s_dscale s)) ro (opt (p_name p) (s_name s)) (opt (p_tier p) (s_tier s)) (opt (p_fc p) (s_fc s)) (opt (p_tcst p)
        (s_tcst s)) (opt (p_tcsm p) (s_tcsm s)) (opt (p_flash p) (s_flash s)) (opt (p_curve p) (s_curve s)) (opt (p_tutil p) (s_tutil s))
        (mkShift st en inv sh_a sh_l) (opt (p_dlimit p) (s_dlimit s)) zero plat (opt (p_dis p) (s_dis s)) (opt (p_cfee p) (s_cfee s)) (opt
        (p_fw p) (s_fw s)),
        needs_admin p s).

(** a token: MintInfo (the oracle fields, only used by clients, and the insurance flag) and its banks *)
Record token := mkTok { tk_oracle : Z; tk_fallback : Z; tk_insurance : bool; tk_banks : list tset }.
(** token_edit.rs:66-508: all banks; the flag is shared *)
Fixpoint edit_all (e : env) (p : params) (L : list tset) : option (list tset * bool) :=
  match L with
  | [] => Some ([], false)
  | s :: L' =>
      match edit_one e p s, edit_all e p L' with
      | Some (s', a), Some (R, b) => Some (s' :: R, a || b)
      | _, _ => None
      end
  end.
(** :510-522, perp_edit_market.rs:426-438, serum3_edit_market.rs:54-66 *)
Definition may_edit (e : env) (require_admin : bool) : bool :=
  (e_admin e =? e_signer e) || (negb require_admin && (e_security e =? e_signer e)).
(** the whole of token_edit; only the first bank is verified (:525-526) *)
Definition token_edit (e : env) (p : params) (t : token) : option token :=
  match edit_all e p (tk_banks t) with
  | None => None
  | Some (L, require_admin) =>
      if may_edit e require_admin && (match L with s :: _ => verify s | [] => false end)
      then Some (mkTok (opt (p_oracle p) (tk_oracle t)) (opt (p_fallback p) (tk_fallback t)) (opt (p_insurance p) (tk_insurance t)) L)
      else None
  end.

(** bank.rs:303-387 *)
Definition from_existing (s : tset) : tset :=
  mkSet (s_oracle s) (s_conf s) (s_stale s) (s_oracle s) (s_sp s) (s_sp_interval s) (s_sp_dgl s) (s_sp_gl s) (s_adj s) (s_util0 s) (s_rate0 s)
  (s_util1 s) (s_rate1 s) (s_maxr s) (s_orig s) (s_loan s) (s_maw s) (s_iaw s) (s_mlw s) (s_ilw s) (s_liqfee s) (s_minvault s) (s_nbl s)
  (s_nbw s) (s_bscale s) (s_dscale s) (s_ro s) (s_name s) (s_tier s) (s_fc s) (s_tcst s) (s_tcsm s) (s_flash s) (s_curve s) (s_tutil s)
  (s_shift s) (s_dlimit s) (s_zero s) (s_plat s) (s_dis s) (s_cfee s) (s_fw s).
(** token_add_bank.rs:8-33: [k], the existing bank; MintInfo has room for 6 *)
Definition add_bank (e : env) (k : nat) (t : token) : option token :=
  if negb (e_admin e =? e_signer e) then None
  else match nth_error (tk_banks t) k with
       | Some s => if (length (tk_banks t) <? 6)%nat then Some (mkTok (tk_oracle t) (tk_fallback t) (tk_insurance t) (tk_banks t ++ [from_existing s])) else None
       | None => None
       end.
(** token_register.rs:50-187: [s], the settings from the arguments; the admin only.  A new
    bank has no shift, and is not force-closed or force-withdrawn. *)
Definition register (e : env) (s : tset) (insurance : bool) : option token :=
  if (e_admin e =? e_signer e) && verify s && e_fallback_ok e && negb (s_fc s) && negb (s_fw s) &&
     match s_shift s with mkShift 0 0 0 0 0 => true | _ => false end
  then Some (mkTok (s_oracle s) (s_fallback s) insurance [s]) else None.
(** token_register_trustless.rs:41-118 and stable_price.rs:70-86: the settings of a token
    listed by the fast listing admin.  Decimal numbers that are f32 or f64 there are rounded
    down here. *)
Definition trustless (oracle fallback sp name tier : Z) : tset :=
  mkSet oracle (of_int 1000) (-1) fallback sp (60 * 60) (f_frac 6 100) (f_frac 3 10000) (dec 4 1000) (dec 5 10) (dec 18 1000) (dec 75 100)
  (dec 5 100) (dec 5 10) (dec 20 10000) (dec 5 1000) 0 0 (dec 14 10) (dec 18 10) (dec 5 100) (f_frac 2 10) 5000000000 (24 * 60 * 60) (f_int
  5000000000) (f_int 5000000000) 2 name tier false f_zero f_zero f_zero (f_int 4) (f_frac 5 10) (mkShift 0 0 0 0 0) 0 0 (dec 5 100) true
  f_zero false.
Definition register_trustless (e : env) (fast_admin oracle fallback sp name tier : Z) : option token :=
  let s := trustless oracle fallback sp name tier in
  if ((e_admin e =? e_signer e) || (fast_admin =? e_signer e)) && verify s && e_fallback_ok e
  then Some (mkTok oracle fallback false [s]) else None.

(** token_update_index_and_rate.rs, its effect on settings: the stable price, the end of a
    weight shift (:122-125, :167-175), and once an hour the rate parameters of the first bank for
    all (:184-243).  [sp]: the new state of the stable price; [x]: the product of
    bank.rs:1186, before [max(1.0)].  The adaptation of banks whose [interest_curve_scaling]
    is 0.0 (:191-201) is left out: no bank that passed [verify] has it. *)
Definition set_sp (sp : Z) (s : tset) : tset :=
  mkSet (s_oracle s) (s_conf s) (s_stale s) (s_fallback s) sp (s_sp_interval s) (s_sp_dgl s) (s_sp_gl s) (s_adj s) (s_util0 s) (s_rate0 s)
  (s_util1 s) (s_rate1 s) (s_maxr s) (s_orig s) (s_loan s) (s_maw s) (s_iaw s) (s_mlw s) (s_ilw s) (s_liqfee s) (s_minvault s) (s_nbl s)
  (s_nbw s) (s_bscale s) (s_dscale s) (s_ro s) (s_name s) (s_tier s) (s_fc s) (s_tcst s) (s_tcsm s) (s_flash s) (s_curve s) (s_tutil s)
  (s_shift s) (s_dlimit s) (s_zero s) (s_plat s) (s_dis s) (s_cfee s) (s_fw s).
Definition shift_done (s : tset) : tset :=
  mkSet (s_oracle s) (s_conf s) (s_stale s) (s_fallback s) (s_sp s) (s_sp_interval s) (s_sp_dgl s) (s_sp_gl s) (s_adj s) (s_util0 s) (s_rate0
  s) (s_util1 s) (s_rate1 s) (s_maxr s) (s_orig s) (s_loan s) (sh_asset (s_shift s)) (s_iaw s) (sh_liab (s_shift s)) (s_ilw s) (s_liqfee s)
  (s_minvault s) (s_nbl s) (s_nbw s) (s_bscale s) (s_dscale s) (s_ro s) (s_name s) (s_tier s) (s_fc s) (s_tcst s) (s_tcsm s) (s_flash s)
  (s_curve s) (s_tutil s) (mkShift 0 0 0 0 0) (s_dlimit s) (s_zero s) (s_plat s) (s_dis s) (s_cfee s) (s_fw s).
Definition set_rates (curve tutil : flt) (rate0 rate1 maxr : fx) (s : tset) : tset :=
  mkSet (s_oracle s) (s_conf s) (s_stale s) (s_fallback s) (s_sp s) (s_sp_interval s) (s_sp_dgl s) (s_sp_gl s) (s_adj s) (s_util0 s) rate0
  (s_util1 s) rate1 maxr (s_orig s) (s_loan s) (s_maw s) (s_iaw s) (s_mlw s) (s_ilw s) (s_liqfee s) (s_minvault s) (s_nbl s) (s_nbw s)
  (s_bscale s) (s_dscale s) (s_ro s) (s_name s) (s_tier s) (s_fc s) (s_tcst s) (s_tcsm s) (s_flash s) curve tutil (s_shift s) (s_dlimit s)
  (s_zero s) (s_plat s) (s_dis s) (s_cfee s) (s_fw s).
(** f64::max(1.0) *)
Definition max_one (x : flt) : flt := if flt_lt f_one x then x else f_one.
Definition update_settings (now sp : Z) (hourly : bool) (x : flt) (t : token) : option token :=
  match tk_banks t with
  | [] => None
  | first :: _ =>
      let done := (0 <? sh_inv (s_shift first)) && (sh_end (s_shift first) <=? now) in
      let L := map (fun s => let s := set_sp sp s in if done then shift_done s else s) (tk_banks t) in
      match hourly, s_curve first with
      | true, FFin 0 => None
      | _, _ =>
          let R := if hourly then map (set_rates (max_one x) (s_tutil first) (s_rate0 first) (s_rate1 first) (s_maxr first)) L else L in
          Some (mkTok (tk_oracle t) (tk_fallback t) (tk_insurance t) R)
      end
  end.

(** histories of a token: listed in one of two ways, then edited, extended and updated *)
Inductive tevent :=
| EEdit (e : env) (p : params)
| EAddBank (e : env) (k : nat)
| EUpdate (now sp : Z) (hourly : bool) (x : flt).
Definition tstep (t : token) (ev : tevent) : option token :=
  match ev with
  | EEdit e p => token_edit e p t
  | EAddBank e k => add_bank e k t
  | EUpdate now sp hourly x => update_settings now sp hourly x t
  end.
Fixpoint trun (t : token) (H : list tevent) : option token :=
  match H with
  | [] => Some t
  | ev :: H' => match tstep t ev with Some t' => trun t' H' | None => None end
  end.
Inductive tlisting :=
| LRegister (e : env) (s : tset) (insurance : bool)
| LTrustless (e : env) (fast_admin oracle fallback sp name tier : Z).
Definition list_token (l : tlisting) : option token :=
  match l with
  | LRegister e s i => register e s i
  | LTrustless e fa o f sp n ti => register_trustless e fa o f sp n ti
  end.
Definition token_after (l : tlisting) (H : list tevent) : option token :=
  match list_token l with Some t => trun t H | None => None end.

(** ** perp markets, perp_edit_market.rs: the settings the security admin may set, and the
    others as one value *)
Record pset := mkPset { m_init_overall : fx; m_reduce_only : bool; m_force_close : bool; m_rest : Z }.
(** the arguments: [pp_rest], the other settings after the edit if one of their arguments is
    given (their checks are not modelled) *)
Record pparams := mkPP { pp_init_overall : option flt; pp_reduce_only : option bool; pp_force_close : option bool; pp_rest : option Z }.
Definition perp_edit (e : env) (p : pparams) (m : pset) : option pset :=
  let* io := num_opt (pp_init_overall p) (m_init_overall m) in
  let ro := opt (pp_reduce_only p) (m_reduce_only m) in
  if match pp_force_close p with Some true => negb ro | _ => false end then None
  else
    let admin := match pp_init_overall p with Some f => flt_nonzero f | None => false end ||
                 match pp_reduce_only p with Some b => negb b | None => false end ||
                 given (pp_force_close p) || given (pp_rest p) in
    if may_edit e admin then Some (mkPset io ro (opt (pp_force_close p) (m_force_close m)) (opt (pp_rest p) (m_rest m))) else None.

(** ** spot markets, serum3_edit_market.rs:5-69 *)
Record sset := mkSset { x_reduce_only : bool; x_force_close : bool; x_name : Z; x_band : flt }.
Record sparams := mkSP { sp_reduce_only : option bool; sp_force_close : option bool; sp_name : option Z; sp_band : option flt }.
Definition serum_edit (e : env) (p : sparams) (m : sset) : option sset :=
  let ro := opt (sp_reduce_only p) (x_reduce_only m) in
  if match sp_force_close p with Some true => negb ro | _ => false end then None
  else
    let admin := match sp_reduce_only p with Some b => negb b | None => false end ||
                 given (sp_force_close p) || given (sp_name p) || given (sp_band p) in
    if may_edit e admin then Some (mkSset ro (opt (sp_force_close p) (x_force_close m)) (opt (sp_name p) (x_name m)) (opt (sp_band p) (x_band m))) else None.

(** ** fast listings, token_register_trustless.rs:24-37: the counters of the group; u16 *)
Record listing := mkFL { fl_start : Z; fl_count : Z; fl_allowed : Z }.
Definition WEEK_S : Z := 7 * 24 * 60 * 60.
Definition fast_list (now : Z) (g : listing) : option listing :=
  let g := if fl_start g + WEEK_S <=? now then mkFL (now / WEEK_S * WEEK_S) 0 (fl_allowed g) else g in
  let c := fl_count g + 1 in
  if c <? 2 ^ 16 then if c <=? fl_allowed g then Some (mkFL (fl_start g) c (fl_allowed g)) else None else None.
(** group_edit.rs:111-118: the admin changes the limit *)
Inductive fevent := FList (now : Z) | FAllow (n : Z).
Definition fstep (g : listing) (ev : fevent) : listing :=
  match ev with
  | FList now => opt (fast_list now g) g
  | FAllow n => mkFL (fl_start g) (fl_count g) n
  end.
