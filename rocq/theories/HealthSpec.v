(** Specification vocabulary for account health. *)
From Coq Require Import List ZArith Bool.
From Verif Require Import Fixed Health.
Import ListNotations.
Open Scope Z_scope.

(** a configuration in which maintenance weights are the most lenient and initial weights
    the strictest, as Bank::verify (bank.rs:402-405) asks of a bank *)
Definition prices_ok (p : prices) : Prop := 0 <= pr_oracle p /\ 0 <= pr_stable p.
Definition token_ok (t : tinfo) : Prop :=
  0 <= ti_scaled_aw t <= ti_init_aw t /\ ti_init_aw t <= ti_maint_aw t /\
  0 <= ti_maint_lw t <= ti_init_lw t /\ ti_init_lw t <= ti_scaled_lw t /\
  prices_ok (ti_prices t).
Definition perp_ok (p : pinfo) : Prop :=
  0 <= pi_init_aw p <= pi_maint_aw p /\ 0 <= pi_maint_lw p <= pi_init_lw p /\
  0 <= pi_init_overall p <= pi_maint_overall p /\
  0 <= pi_lot p /\ 0 <= pi_bids p /\ 0 <= pi_asks p /\ prices_ok (pi_prices p).
Definition cache_ok (hc : cache) : Prop :=
  Forall token_ok (hc_tokens hc) /\ Forall perp_ok (hc_perps hc) /\ NoDup (map ti_index (hc_tokens hc)).
(** no tokens reserved by open orders on spot markets *)
Definition no_reserved (hc : cache) : Prop :=
  Forall (fun s => si_res_base s = 0 /\ si_res_quote s = 0 /\ si_base_as_quote s = 0 /\ si_quote_as_base s = 0) (hc_serum hc).

(** strictness: Init is stricter than LiqEnd, which is stricter than Maint *)
Definition stricter (a b : htype) : Prop :=
  match a, b with
  | HInit, _ | _, HMaint | HLiqEnd, HLiqEnd => True
  | _, _ => False
  end.

(** ** the value of balances, without rounding *)
(** a balance weighted as an asset or a liability, times 2^96 *)
Definition exact_value1 (t : tinfo) (ty : htype) (x : fx) : Z :=
  x * (if x <? 0 then liab_weight t ty * liab_price (ti_prices t) ty else asset_weight t ty * asset_price (ti_prices t) ty).
Definition exact_value (toks : list tinfo) (ty : htype) (B : list fx) : Z :=
  sum (map (fun tb => exact_value1 (fst tb) ty (snd tb)) (combine toks B)).
(** what all borrows amount to in native tokens *)
Definition borrowed (B : list fx) : fx := sum (map (fun x => Z.max (- x) 0) B).
Definition held (B : list fx) : fx := sum (map (fun x => Z.max x 0) B).

(** balances after the open orders of each market were filled: [true], all bids, so that
    all reserved tokens end up as base; [false], all asks *)
Fixpoint resolve (toks : list tinfo) (ty : htype) (O : list sinfo) (fills : list bool) (B : list fx) : option (list fx) :=
  match O, fills with
  | [], _ => Some B
  | si :: O', f :: fills' =>
      match nth_error toks (si_quote si), nth_error toks (si_base si) with
      | Some q, Some b =>
          match (if f then reserved_as_base si ty q b else reserved_as_quote si ty q b) with
          | Some r => resolve toks ty O' fills' (add_at B (if f then si_base si else si_quote si) r)
          | None => None
          end
      | _, _ => None
      end
  | _, [] => None
  end.
Definition serum_ok (s : sinfo) : Prop :=
  0 <= si_res_base s /\ 0 <= si_res_quote s /\ 0 <= si_base_as_quote s /\ 0 <= si_quote_as_base s.
(** prices are positive (a price of zero makes the division fail) *)
Definition priced (t : tinfo) : Prop := 0 < pr_oracle (ti_prices t) /\ 0 < pr_stable (ti_prices t).
(** the tokens of the markets with open orders *)
Definition touched (O : list sinfo) : list nat := flat_map (fun s => [si_base s; si_quote s]) O.
(** assets count for no more than liabilities *)
Definition haircut (t : tinfo) : Prop := ti_maint_aw t <= ti_maint_lw t.
Definition toks_ok (toks : list tinfo) : Prop := Forall (fun t => token_ok t /\ haircut t /\ priced t) toks.
(** rounding of the value of one market's orders: two prices, in units in the last place *)
Definition market_slack (toks : list tinfo) (ty : htype) (si : sinfo) : Z :=
  match nth_error toks (si_quote si), nth_error toks (si_base si) with
  | Some q, Some b => 2 * (liab_price (ti_prices q) ty + liab_price (ti_prices b) ty + fone)
  | _, _ => 0
  end.

(** ** single amounts *)
(** the value of a balance [x], times 2^96 *)
Definition worth (awp lwp : fx) (x : fx) : Z := x * (if x <? 0 then lwp else awp).

(** ** perp positions *)
(** the value, times 2^96, of a perp position after [b] lots of its bids and [a] lots of
    its asks were filled, at the prices health assumes: the final base position is
    weighted, quote is paid or received *)
Definition fills_value (pi : pinfo) (ty : htype) (b a : Z) : Z :=
  let net := (pi_base pi + b - a) * pi_lot pi in
  let lw := match ty with HMaint => pi_maint_lw pi | _ => pi_init_lw pi end in
  let aw := match ty with HMaint => pi_maint_aw pi | _ => pi_init_aw pi end in
  fone * (pi_quote pi - b * pi_lot pi * liab_price (pi_prices pi) ty + a * pi_lot pi * asset_price (pi_prices pi) ty)
  + net * (if net <? 0 then lw * liab_price (pi_prices pi) ty else aw * asset_price (pi_prices pi) ty).
Definition perp_haircut (p : pinfo) : Prop :=
  0 <= pi_init_aw p <= fone /\ 0 <= pi_maint_aw p <= fone /\ fone <= pi_init_lw p /\ fone <= pi_maint_lw p /\
  0 <= pi_lot p /\ 0 <= pi_bids p /\ 0 <= pi_asks p /\ prices_ok (pi_prices p).

(** ** skipped banks *)
(** the position as it would be with its bank passed and its oracle usable *)
Definition complete (p : pos_in) : pos_in := mkPosIn true true (pin_nonneg p) (pin_info p).
(** a nonnegative position is worth a nonnegative amount of tokens *)
Definition position_ok (p : pos_in) : Prop := token_ok (pin_info p) /\ (pin_nonneg p = true -> 0 <= ti_spot (pin_info p)).
Definition free_ok (s : serum_in) : Prop := 0 <= oo_base_free (sin_oo s) /\ 0 <= oo_quote_free (sin_oo s).
(** no open orders: everything in the open orders account is free *)
Definition all_free (s : serum_in) : Prop :=
  oo_base_total (sin_oo s) = oo_base_free (sin_oo s) /\ oo_quote_total (sin_oo s) = oo_quote_free (sin_oo s).

(** ** liquidation phases *)
(** the flags say what they should: as [new_sinfo] and [new_pinfo] set them *)
Definition flags_ok (hc : cache) : Prop :=
  Forall (fun s => si_zero s = true -> si_res_base s = 0 /\ si_res_quote s = 0 /\ si_base_as_quote s = 0 /\ si_quote_as_base s = 0) (hc_serum hc) /\
  Forall (fun p => pi_orders p = false -> pi_bids p = 0 /\ pi_asks p = 0) (hc_perps hc).
