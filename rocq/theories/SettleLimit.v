(** Perp pnl settlement limits and amounts: the settle-limit fields of PerpPosition and
    the functions that read and change them, and the amounts moved by the instructions
    that settle pnl.   Models src/state/mango_account_components.rs:460-800,
    src/state/perp_market.rs:423-480, src/instructions/perp_settle_pnl.rs,
    perp_settle_fees.rs. *)
From Coq Require Import List ZArith Lia Bool.
From Verif Require Import OrderTree Keys Fixed PerpTypes.
Import ListNotations.
Open Scope Z_scope.

(** i80f48.rs:9-17 [clamp_to_i64] of an I80F48; i64 saturating arithmetic *)
Definition sat64 (x : Z) : Z := Z.max i64_min (Z.min i64_max x).
Definition clamp64 (x : fx) : Z := sat64 (to_int x).

(** round to nearest, ties to even, at [d] significant bits: the result of an f64
    operation ([d = 53]) whose exact result is the integer [x] times a power of two *)
Definition sig_round (d : Z) (x : Z) : Z :=
  let a := Z.abs x in
  let e := Z.log2 a - (d - 1) in
  if e <=? 0 then x
  else
    let u := 2 ^ e in
    let q := a / u in
    let r := a mod u in
    let q' := if (2 * r <? u) then q
              else if (u <? 2 * r) then q + 1
              else if Z.even q then q else q + 1 in
    Z.sgn x * (q' * u).

(** perp_market.rs fields used by settlement.  [sc_m / 2^sc_e] is the f32
    [settle_pnl_limit_factor] ([sc_m < 0]: limits are off), [sc_factor] its
    [I80F48::from_num]; [sc_stable] is [stable_price()]; the fee parameters are
    [I80F48::from_num] of f32 fields; [sc_fee_thr] is the smallest I80F48 that is [>=]
    the f32 [settle_fee_amount_threshold]. *)
Record scfg := mkSC {
  sc_m : Z; sc_e : Z; sc_factor : fx;
  sc_window : Z;          (* settle_pnl_limit_window_size_ts *)
  sc_stable : fx;
  sc_fee_flat : fx; sc_fee_thr : fx; sc_fee_frac : fx }.

(** the settle-limit fields of PerpPosition (mango_account_components.rs:205-240,
    :295-310): window number, amount used in it, recurring allowance *)
Record limits := mkLim { lm_window : Z; lm_used : Z; lm_rec : Z }.
(** PerpPosition::default(), :322-363 *)
Definition lim0 : limits := mkLim 0 0 0.

(** :635-640 [unsettled_pnl] *)
Definition unsettled_pnl (p : position) (mk : market) (price : fx) : fx :=
  p_quote p + fmul (of_int (p_base p * mk_bls mk)) price.

(** :643-655 [update_settle_limit]; the window number must fit u32.  [None]: division by
    zero or conversion failure. *)
Definition update_settle_limit (l : limits) (c : scfg) (now : Z) : option limits :=
  let start := lm_window l * sc_window c in
  if (start + sc_window c <=? now) || (now <? start)
  then if (sc_window c =? 0) || (2 ^ 32 <=? now / sc_window c) then None
       else Some (mkLim (now / sc_window c) 0 (lm_rec l))
  else Some l.

(** :663-676 the part of the limit given by the base position: an f64 product *)
Definition unrealized_limit (p : position) (mk : market) (c : scfg) : Z :=
  let v := Z.abs (fmul (sc_stable c) (of_int (p_base p * mk_bls mk))) in
  sat64 (Z.quot (sig_round 53 (sig_round 53 v * sc_m c)) (fone * 2 ^ sc_e c)).
(** |quote + base at the stable price|, rounded up *)
Definition stable_upnl_abs (p : position) (mk : market) (c : scfg) : Z :=
  ceil_int (Z.abs (p_quote p + fmul (sc_stable c) (of_int (p_base p * mk_bls mk)))).

(** :663-697 [settle_limit]: (min_pnl, max_pnl) *)
Definition settle_limit (p : position) (l : limits) (mk : market) (c : scfg) : Z * Z :=
  if sc_m c <? 0 then (i64_min, i64_max)
  else
    let mx := unrealized_limit p mk c + Z.min (Z.abs (lm_rec l)) (stable_upnl_abs p mk c) in
    let mn := - mx in
    let os := p_oneshot p in
    let '(mn, mx) :=
      if 0 <=? os then (mn, sat64 (mx + clamp64 (fceil os)))
      else (sat64 (mn + clamp64 (ffloor os)), mx) in
    (Z.min mn 0, Z.max mx 0).

(** :703-716 [available_settle_limit] *)
Definition available_settle_limit (p : position) (l : limits) (mk : market) (c : scfg) : Z * Z :=
  if sc_m c <? 0 then (i64_min, i64_max)
  else
    let '(mn, mx) := settle_limit p l mk c in
    (Z.min (sat64 (mn - lm_used l)) 0, Z.max (sat64 (mx - lm_used l)) 0).

(** :719-730 [apply_pnl_settle_limit] *)
Definition apply_pnl_settle_limit (p : position) (l : limits) (mk : market) (c : scfg) (pnl : fx) : fx :=
  if sc_m c <? 0 then pnl
  else
    let '(mn, mx) := available_settle_limit p l mk c in
    if pnl <? 0 then Z.max pnl (of_int mn) else Z.min pnl (of_int mx).

(** :560-577 [apply_recurring_settle_pnl_allowance_constraint]: new recurring allowance
    and its change *)
Definition constrain_recurring (p : position) (l : limits) (mk : market) (c : scfg) : limits * Z :=
  let before := Z.abs (lm_rec l) in
  let upnl := ceil_int (Z.abs (unsettled_pnl p mk (sc_stable c))) in
  let r := Z.max (Z.min before upnl) 0 in
  (mkLim (lm_window l) (lm_used l) r, r - before).

Definition add_quote (p : position) (q os : fx) : position :=
  mkPos (p_base p) (p_quote p + q) (p_bids p) (p_asks p) (p_taker_base p) (p_taker_quote p)
        (p_long_settled p) (p_short_settled p) (p_oneshot p + os).

(** :735-774 [record_settle] *)
Definition record_settle (p : position) (l : limits) (mk : market) (c : scfg) (settled : fx) : position * limits :=
  let red := if 0 <? settled then Z.max (Z.min settled (p_oneshot p)) 0
             else Z.min (Z.max settled (p_oneshot p)) 0 in
  let p' := add_quote p (- settled) (- red) in
  let used := sat64 (rtz_int (settled - red)) in
  let '(l', change) := constrain_recurring p' l mk c in
  let used := if change <? 0
              then if 0 <? used then Z.max (used + change) 0 else Z.min (used - change) 0
              else used in
  (p', mkLim (lm_window l') (lm_used l' + used) (lm_rec l')).

(** :784-787 [record_liquidation_quote_change] *)
Definition record_liquidation_quote_change (p : position) (change : fx) : position := add_quote p change change.
(** :790-799 [record_liquidation_pnl_takeover] *)
Definition record_liquidation_pnl_takeover (p : position) (l : limits) (change : fx) (rec os : Z) : position * limits :=
  (add_quote p change (of_int os), mkLim (lm_window l) (lm_used l) (lm_rec l + rec)).

(** :466-557 [update_trade_stats], the recurring allowance part (:545-554): lots by which
    the position is reduced and increased, and the allowance materialized or taken away.
    The entry price, break-even and realized pnl statistics are left out. *)
Definition trade_allowance (p : position) (l : limits) (mk : market) (c : scfg) (base : Z) : limits :=
  if base =? 0 then l
  else
    let old := p_base p in
    let new := old + base in
    let '(reduced, increased) :=
      if new =? 0 then (Z.abs old, 0)
      else if negb (Z.sgn old =? Z.sgn new) then (Z.abs old, Z.abs new)
      else if Z.sgn old =? Z.sgn base then (0, Z.abs base)
      else (Z.abs base, 0) in
    let change := clamp64 (fmul (fmul (of_int ((increased - reduced) * mk_bls mk)) (sc_stable c)) (sc_factor c)) in
    mkLim (lm_window l) (lm_used l) (Z.max (Z.abs (lm_rec l) - change) 0).
(** :581-597 [record_trade], all fields *)
Definition record_trade_full (p : position) (l : limits) (mk : market) (c : scfg) (base : Z) (quote : fx)
  : position * limits * market :=
  let l1 := trade_allowance p l mk c base in
  let '(p', mk') := record_trade p mk base quote in
  (p', fst (constrain_recurring p' l1 mk' c), mk').

(** perp_market.rs:425-480 [compute_settle_fee]; [None] is an error or panic *)
Definition compute_settle_fee (c : scfg) (settlement pnl_value position_value liq_end maint : fx) : option fx :=
  if negb (position_value <? fmul (of_int 100) pnl_value) then Some 0
  else if maint <? liq_end then None
  else
    let low :=
      if liq_end <? 0 then
        if maint <? 0 then fmul settlement (sc_fee_frac c)
        else fmul (fmul settlement (sc_fee_frac c)) (fdiv (- liq_end) (maint - liq_end))
      else 0 in
    let fee := if sc_fee_thr c <=? settlement then sc_fee_flat c
               else Z.min low (fmul (sc_fee_flat c) (of_int 2)) in
    let fee := Z.min fee settlement in
    if 0 <=? fee then Some fee else None.

(** what a pnl settlement does: the two positions with their limits, and the settle
    token amounts credited to A, B and the settler *)
Record settled := mkSettled {
  st_amount : fx; st_fee : fx;
  st_a : position * limits; st_b : position * limits;
  st_token_a : fx; st_token_b : fx; st_token_settler : fx }.

(** perp_settle_pnl.rs:10-255, without token position handling.  [bmax] is B's
    [perp_max_settle] and [liq_end], [maint] A's health values, computed before. *)
Definition settle_pnl (mk : market) (c : scfg) (pa : position) (la : limits) (pb : position) (lb : limits)
    (price settle_price bmax liq_end maint now : Z) : option settled :=
  let pa := settle_funding pa mk in
  let pb := settle_funding pb mk in
  let a_pnl := unsettled_pnl pa mk price in
  let b_pnl := unsettled_pnl pb mk price in
  if negb (0 <? a_pnl) || negb (b_pnl <? 0) then None
  else
    match update_settle_limit la c now, update_settle_limit lb c now with
    | Some la, Some lb =>
        let a_able := apply_pnl_settle_limit pa la mk c a_pnl in
        let b_able := apply_pnl_settle_limit pb lb mk c b_pnl in
        if negb (0 <? a_able) || negb (b_able <? 0) || negb (0 <? bmax) then None
        else
          let s := Z.max (Z.min (Z.min a_able (- b_able)) bmax) 0 in
          let a := record_settle pa la mk c s in
          let b := record_settle pb lb mk c (- s) in
          let position_value := fmul (Z.abs (of_int (p_base (fst a) * mk_bls mk))) price in
          let pnl_value := fmul a_pnl settle_price in
          match compute_settle_fee c s pnl_value position_value liq_end maint with
          | Some fee => Some (mkSettled s fee a b (s - fee) (- s) fee)
          | None => None
          end
    | _, _ => None
    end.

(** perp_settle_fees.rs:14-130: the position, its limits, the market and the token
    amount taken from the account; the final health check is left out.  Note that
    [update_settle_limit] is not called. *)
Definition settle_fees (mk : market) (c : scfg) (p : position) (l : limits) (price max_amount : Z)
  : option (position * limits * market * fx) :=
  if max_amount =? 0 then None
  else
    let p := settle_funding p mk in
    let pnl := unsettled_pnl p mk price in
    let able := apply_pnl_settle_limit p l mk c pnl in
    if negb (able <? 0) || negb (0 <? mk_fees_accrued mk) then Some (p, l, mk, 0)
    else
      let s := Z.min (Z.min (Z.abs able) (Z.abs (mk_fees_accrued mk))) (of_int max_amount) in
      let '(p', l') := record_settle p l mk c (- s) in
      Some (p', l', with_fees mk (mk_fees_accrued mk - s), s).
