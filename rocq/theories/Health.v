(** Account health: health/cache.rs.  The cache holds the numbers; building it from
    account data is [new_*] below, for the parts whose inputs are numbers.
    Simplifications: I80F48 overflow (a panic) is not modelled; f64 values are exact
    dyadic rationals rounded like IEEE doubles, without overflow or subnormals, which do
    not occur for quotients of I80F48 numbers. *)
From Coq Require Import List ZArith Lia Bool.
From Verif Require Import Fixed PerpTypes.
Import ListNotations.
Open Scope Z_scope.

(** ** division in double precision, i80f48.rs:130-132 [checked_div_f64_precision] *)
(** n / d to the nearest integer, ties to even *)
Definition rne (n d : Z) : Z :=
  let q := n / d in
  let r := n mod d in
  if 2 * r <? d then q else if d <? 2 * r then q + 1 else if Z.even q then q else q + 1.
(** [to_num::<f64>()]: 53 significant bits; the result is a multiple of 2^-48 again *)
Definition f64_round (x : fx) : fx :=
  let a := Z.abs x in
  let e := Z.log2 a - 52 in
  if e <=? 0 then x else Z.sgn x * (rne a (2 ^ e) * 2 ^ e).
(** a / b for positive doubles, as [m * 2^(-s)] *)
Definition f64_quot (a b : Z) : Z * Z :=
  let e := Z.log2 a - Z.log2 b in
  let E := if (if 0 <=? e then b * 2 ^ e <=? a else b <=? a * 2 ^ (- e)) then e else e - 1 in
  let s := 52 - E in
  (if 0 <=? s then rne (a * 2 ^ s) b else rne a (b * 2 ^ (- s)), s).
(** [I80F48::checked_from_num(f64)]: nearest, ties to even; [None] outside i128 *)
Definition div_f64 (a b : fx) : option fx :=
  if b =? 0 then None
  else
    let a' := f64_round a in
    let b' := f64_round b in
    if a' =? 0 then Some 0
    else
      let '(m, s) := f64_quot (Z.abs a') (Z.abs b') in
      let r := if s <=? 48 then m * 2 ^ (48 - s) else rne m (2 ^ (s - 48)) in
      let r := Z.sgn a' * Z.sgn b' * r in
      if (- 2 ^ 127 <=? r) && (r <? 2 ^ 127) then Some r else None.

(** ** prices and health types, cache.rs:32-93 *)
Inductive htype := HInit | HMaint | HLiqEnd.
Record prices := mkPr { pr_oracle : fx; pr_stable : fx }.
Definition liab_price (p : prices) (ty : htype) : fx :=
  match ty with HInit => Z.max (pr_oracle p) (pr_stable p) | _ => pr_oracle p end.
Definition asset_price (p : prices) (ty : htype) : fx :=
  match ty with HInit => Z.min (pr_oracle p) (pr_stable p) | _ => pr_oracle p end.

(** cache.rs:120-164 [spot_amount_taken_for_health_zero]; [None] is the error *)
Definition spot_amount_taken (health spot awp lwp : fx) : option fx :=
  if health <=? 0 then Some 0
  else
    let rest (taken health : fx) :=
      if 0 <? health then if 0 <? lwp then Some (taken + fdiv health lwp) else None else Some taken in
    if 0 <? spot then
      if (0 <? awp) && (fdiv health awp <=? spot) then Some (fdiv health awp)
      else rest spot (health - fmul spot awp)
    else rest 0 health.
Definition spot_amount_given (health spot awp lwp : fx) : option fx := spot_amount_taken (- health) (- spot) lwp awp.

(** ** tokens, cache.rs:166-237 *)
Record tinfo := mkTI {
  ti_index : Z;
  ti_maint_aw : fx; ti_init_aw : fx; ti_scaled_aw : fx;
  ti_maint_lw : fx; ti_init_lw : fx; ti_scaled_lw : fx;
  ti_prices : prices; ti_spot : fx; ti_liq_ok : bool }.
Definition asset_weight (t : tinfo) (ty : htype) : fx :=
  match ty with HInit => ti_scaled_aw t | HLiqEnd => ti_init_aw t | HMaint => ti_maint_aw t end.
Definition liab_weight (t : tinfo) (ty : htype) : fx :=
  match ty with HInit => ti_scaled_lw t | HLiqEnd => ti_init_lw t | HMaint => ti_maint_lw t end.
Definition asset_wp (t : tinfo) (ty : htype) : fx := fmul (asset_weight t ty) (asset_price (ti_prices t) ty).
Definition liab_wp (t : tinfo) (ty : htype) : fx := fmul (liab_weight t ty) (liab_price (ti_prices t) ty).
Definition contribution (t : tinfo) (ty : htype) (bal : fx) : fx :=
  fmul bal (if bal <? 0 then liab_wp t ty else asset_wp t ty).

(** ** spot open orders, cache.rs:246-429 *)
Record openorders := mkOO { oo_base_free : Z; oo_base_total : Z; oo_quote_free : Z; oo_quote_total : Z; oo_rebates : Z }.
Record sinfo := mkSI {
  si_base : nat; si_quote : nat;                 (* indexes into the token infos *)
  si_res_base : fx; si_res_quote : fx;
  si_base_as_quote : fx; si_quote_as_base : fx;  (* at the extreme order prices; 0: unknown *)
  si_market : Z; si_zero : bool }.
(** :267-297 [Serum3Info::new]; [low_ask], [high_bid_inv]: the f64 fields of the account,
    as I80F48.  [None]: u64 subtraction underflow. *)
Definition new_sinfo (oo : openorders) (low_ask high_bid_inv : fx) (base quote : nat) (market : Z) : option sinfo :=
  if (oo_base_total oo <? oo_base_free oo) || (oo_quote_total oo <? oo_quote_free oo) then None
  else
    let rb := of_int (oo_base_total oo - oo_base_free oo) in
    let rq := of_int (oo_quote_total oo - oo_quote_free oo) in
    Some (mkSI base quote rb rq (fmul rb low_ask) (fmul rq high_bid_inv) market
      ((oo_base_total oo =? 0) && (oo_quote_total oo =? 0) && (oo_rebates oo =? 0))).
(** :299-337 *)
Definition reserved_as_base (si : sinfo) (ty : htype) (q b : tinfo) : option fx :=
  match div_f64 (fmul (si_res_quote si) (asset_price (ti_prices q) ty)) (liab_price (ti_prices b) ty) with
  | None => None
  | Some o => Some (si_res_base si + if si_quote_as_base si =? 0 then o else Z.min o (si_quote_as_base si))
  end.
Definition reserved_as_quote (si : sinfo) (ty : htype) (q b : tinfo) : option fx :=
  match div_f64 (fmul (si_res_base si) (asset_price (ti_prices b) ty)) (liab_price (ti_prices q) ty) with
  | None => None
  | Some o => Some (si_res_quote si + if si_base_as_quote si =? 0 then o else Z.min o (si_base_as_quote si))
  end.
(** :382-405 [compute_health_effect] *)
Definition health_effect (t : tinfo) (ty : htype) (bal max_reserved reserved : fx) : fx :=
  let m := bal + max_reserved in
  let '(ap, lp) := if reserved <=? m then (reserved, 0) else if m <? 0 then (0, reserved) else (m, reserved - m) in
  fmul (fmul ap (asset_weight t ty)) (asset_price (ti_prices t) ty) + fmul (fmul lp (liab_weight t ty)) (liab_price (ti_prices t) ty).

(** ** perps, cache.rs:431-581 *)
Record pinfo := mkPI {
  pi_market : Z; pi_settle : Z;
  pi_maint_aw : fx; pi_init_aw : fx; pi_maint_lw : fx; pi_init_lw : fx;
  pi_maint_overall : fx; pi_init_overall : fx;
  pi_lot : Z; pi_base : Z; pi_bids : Z; pi_asks : Z; pi_quote : fx;
  pi_prices : prices; pi_orders : bool; pi_fills : bool }.
(** :456-486 [PerpInfo::new], for the position and market of PerpTypes; the weights that
    PerpTypes does not have are arguments *)
Definition new_pinfo (p : position) (mk : market) (settle : Z) (init_aw init_lw maint_overall init_overall : fx) (pr : prices) : pinfo :=
  mkPI (mk_index mk) settle (mk_maint_asset_w mk) init_aw (mk_maint_liab_w mk) init_lw maint_overall init_overall
    (mk_bls mk) (p_base p + p_taker_base p) (p_bids p) (p_asks p)
    (p_quote p - unsettled_funding p mk + of_int (p_taker_quote p * mk_qls mk)) pr
    (negb (p_asks p =? 0) || negb (p_bids p =? 0)) (negb (p_taker_base p =? 0) || negb (p_taker_quote p =? 0)).
(** :536-568 [order_execution_case] *)
Definition execution_case (pi : pinfo) (ty : htype) (orders : Z) (order_price : fx) : fx :=
  let net := (pi_base pi + orders) * pi_lot pi in
  let w := match ty with
           | HMaint => if net <? 0 then pi_maint_lw pi else pi_maint_aw pi
           | _ => if net <? 0 then pi_init_lw pi else pi_init_aw pi
           end in
  let price := if net <? 0 then liab_price (pi_prices pi) ty else asset_price (pi_prices pi) ty in
  fmul (fmul (of_int net) w) price + fmul (- of_int (orders * pi_lot pi)) order_price.
Definition uhupnl (pi : pinfo) (ty : htype) : fx :=
  pi_quote pi + Z.min (execution_case pi ty (pi_bids pi) (liab_price (pi_prices pi) ty))
                      (execution_case pi ty (- pi_asks pi) (asset_price (pi_prices pi) ty)).
(** :508-527 *)
Definition overall_weight (pi : pinfo) (ty : htype) : fx :=
  match ty with HMaint => pi_maint_overall pi | _ => pi_init_overall pi end.
Definition hupnl (pi : pinfo) (ty : htype) : fx :=
  let u := uhupnl pi ty in if 0 <? u then fmul (overall_weight pi ty) u else u.

(** ** the cache, cache.rs:595-1220 *)
Record cache := mkHC { hc_tokens : list tinfo; hc_serum : list sinfo; hc_perps : list pinfo }.
(** :825-837 [token_info_index]: first position *)
Fixpoint token_pos (L : list tinfo) (idx : Z) : option nat :=
  match L with
  | [] => None
  | t :: L' => if ti_index t =? idx then Some O else option_map S (token_pos L' idx)
  end.
Fixpoint add_at (L : list fx) (i : nat) (x : fx) : list fx :=
  match L, i with
  | [], _ => []
  | y :: L', O => y + x :: L'
  | y :: L', S i' => y :: add_at L' i' x
  end.
Definition zeros (n : nat) : list fx := repeat 0 n.
Definition zadd (A B : list fx) : list fx := map (fun ab => fst ab + snd ab) (combine A B).

(** :1098-1126 [effective_token_balances_internal]; [None]: the unwrap of
    [token_info_index] panics *)
Fixpoint perp_balances (toks : list tinfo) (ty : htype) (ignore_negative : bool) (P : list pinfo) (acc : list fx) : option (list fx) :=
  match P with
  | [] => Some acc
  | pi :: P' =>
      match token_pos toks (pi_settle pi) with
      | None => None
      | Some i =>
          let h := hupnl pi ty in
          perp_balances toks ty ignore_negative P' (if negb ignore_negative || (0 <? h) then add_at acc i h else acc)
      end
  end.
Definition balances (hc : cache) (ty : htype) (ignore_negative : bool) : option (list fx) :=
  match perp_balances (hc_tokens hc) ty ignore_negative (hc_perps hc) (zeros (length (hc_tokens hc))) with
  | None => None
  | Some L => Some (zadd L (map ti_spot (hc_tokens hc)))
  end.

(** :1049-1079 [compute_serum3_reservations]: per token, and per market; [None]: index out
    of bounds or division failure *)
Fixpoint reservations (toks : list tinfo) (ty : htype) (O : list sinfo) (acc : list fx) : option (list fx * list (fx * fx)) :=
  match O with
  | [] => Some (acc, [])
  | si :: O' =>
      match nth_error toks (si_quote si), nth_error toks (si_base si) with
      | Some q, Some b =>
          match reserved_as_base si ty q b, reserved_as_quote si ty q b with
          | Some rb, Some rq =>
              match reservations toks ty O' (add_at (add_at acc (si_base si) rb) (si_quote si) rq) with
              | Some (M, R) => Some (M, (rb, rq) :: R)
              | None => None
              end
          | _, _ => None
          end
      | _, _ => None
      end
  end.
(** :361-428 [Serum3Info::health_contribution] *)
Definition serum_contribution (toks : list tinfo) (ty : htype) (bals maxr : list fx) (si : sinfo) (r : fx * fx) : fx :=
  let '(rb, rq) := r in
  if (rb =? 0) || (rq =? 0) then 0
  else
    match nth_error toks (si_base si), nth_error toks (si_quote si) with
    | Some b, Some q =>
        Z.min (health_effect b ty (nth (si_base si) bals 0) (nth (si_base si) maxr 0) rb)
              (health_effect q ty (nth (si_quote si) bals 0) (nth (si_quote si) maxr 0) rq)
    | _, _ => 0 (* excluded by [reservations] *)
    end.
Definition sum (L : list fx) : fx := fold_right Z.add 0 L.
Definition token_contributions (toks : list tinfo) (ty : htype) (bals : list fx) : list fx :=
  map (fun tb => contribution (fst tb) ty (snd tb)) (combine toks bals).
Definition serum_contributions (hc : cache) (ty : htype) (bals : list fx) : option (list fx) :=
  match reservations (hc_tokens hc) ty (hc_serum hc) (zeros (length (hc_tokens hc))) with
  | None => None
  | Some (M, R) => Some (map (fun sr => serum_contribution (hc_tokens hc) ty bals M (fst sr) (snd sr)) (combine (hc_serum hc) R))
  end.
(** :1128-1152 [health_sum] *)
Definition health_sum (hc : cache) (ty : htype) (bals : list fx) : option fx :=
  match serum_contributions hc ty bals with
  | None => None
  | Some C => Some (sum (token_contributions (hc_tokens hc) ty bals) + sum C)
  end.
(** :607-616 [health] *)
Definition health (hc : cache) (ty : htype) : option fx :=
  match balances hc ty false with None => None | Some B => health_sum hc ty B end.

(** :1180-1204 [perp_max_settle] *)
Definition perp_max_settle (hc : cache) (settle : Z) : option fx :=
  match balances hc HMaint true with
  | None => None
  | Some B =>
      match health_sum hc HMaint B, token_pos (hc_tokens hc) settle with
      | Some h, Some i =>
          match nth_error (hc_tokens hc) i with
          | Some t => spot_amount_taken h (nth i B 0) (asset_wp t HMaint) (liab_wp t HMaint)
          | None => None
          end
      | _, _ => None
      end
  end.

(** :666-748 [health_assets_and_liabs] *)
Definition split_add (al : fx * fx) (v : fx) : fx * fx :=
  if 0 <? v then (fst al + v, snd al) else (fst al, snd al - v).
Definition token_split (hc : cache) (ty : htype) (t : tinfo) : fx * fx :=
  fold_left (fun al pi => if pi_settle pi =? ti_index t then split_add al (hupnl pi ty) else al) (hc_perps hc) (split_add (0, 0) (ti_spot t)).
Definition token_assets_liabs (hc : cache) (ty : htype) (stable_assets : bool) (tot : fx * fx) (t : tinfo) : fx * fx :=
  let '(a, l) := token_split hc ty t in
  if stable_assets then
    let assets := fmul a (asset_wp t ty) in
    (fst tot + assets,
     snd tot + if l <=? a then fmul l (asset_wp t ty) else assets + fmul (l - a) (liab_wp t ty))
  else
    let liabs := fmul l (liab_wp t ty) in
    (fst tot + (if l <=? a then liabs + fmul (a - l) (asset_wp t ty) else fmul a (liab_wp t ty)),
     snd tot + liabs).
Definition assets_and_liabs (hc : cache) (ty : htype) (stable_assets : bool) : option (fx * fx) :=
  let T := fold_left (token_assets_liabs hc ty stable_assets) (hc_tokens hc) (0, 0) in
  match balances hc ty false with
  | None => None
  | Some B => match serum_contributions hc ty B with
              | None => None
              | Some C => Some (fold_left split_add C T)
              end
  end.

(** ** liquidation phases, cache.rs:911-1047 *)
Definition spot_zip (hc : cache) : option (list (tinfo * fx)) := option_map (combine (hc_tokens hc)) (balances hc HLiqEnd false).
Definition liq_borrow (tb : tinfo * fx) : bool := (ti_spot (fst tb) <? 0) && (snd tb <? 0).
Definition liq_asset (tb : tinfo * fx) : bool := (fone <=? ti_spot (fst tb)) && (fone <=? snd tb) && ti_liq_ok (fst tb).
Definition has_spot_liquidations (Z : list (tinfo * fx)) : bool := existsb liq_borrow Z && existsb liq_asset Z.
Definition has_perp_open_fills (hc : cache) : bool := existsb pi_fills (hc_perps hc).
Definition has_perp_base (hc : cache) : bool := existsb (fun p => negb (pi_base p =? 0)) (hc_perps hc).
Definition has_perp_positive (hc : cache) : bool := existsb (fun p => (pi_base p =? 0) && (0 <? pi_quote p)) (hc_perps hc).
Definition has_perp_negative (hc : cache) : bool := existsb (fun p => (pi_base p =? 0) && (pi_quote p <? 0)) (hc_perps hc).
Definition has_phase1 (hc : cache) : bool := existsb (fun s => negb (si_zero s)) (hc_serum hc) || existsb pi_orders (hc_perps hc).
Definition has_phase2 (hc : cache) (Z : list (tinfo * fx)) : bool :=
  has_spot_liquidations Z || has_perp_base hc || has_perp_open_fills hc || has_perp_positive hc.
Definition has_phase3 (hc : cache) (Z : list (tinfo * fx)) : bool := existsb liq_borrow Z || has_perp_negative hc.
Definition in_phase1 (hc : cache) : bool := has_phase1 hc.
Definition in_phase2 (hc : cache) Z : bool := negb (has_phase1 hc) && has_phase2 hc Z.
Definition in_phase3 (hc : cache) Z : bool := negb (has_phase1 hc) && negb (has_phase2 hc Z) && has_phase3 hc Z.
(** :974-1025: [true] is Ok *)
Definition after_phase1 (hc : cache) : bool := negb (existsb (fun s => negb (si_zero s)) (hc_serum hc)) && negb (existsb pi_orders (hc_perps hc)).
Definition after_phase2 (hc : cache) (Z : list (tinfo * fx)) : bool :=
  after_phase1 hc && negb (has_spot_liquidations Z) && negb (has_perp_base hc) && negb (has_perp_open_fills hc) && negb (has_perp_positive hc).

(** ** building the cache, cache.rs:1264-1400 [new_health_cache_impl] *)
(** an active token position: whether its bank was passed, whether its oracle can be used,
    whether the indexed position is >= 0, and the token info the bank would give
    (weights, prices, native balance) *)
Record pos_in := mkPosIn { pin_available : bool; pin_oracle_ok : bool; pin_nonneg : bool; pin_info : tinfo }.
Fixpoint build_tokens (skip : bool) (L : list pos_in) : option (list tinfo) :=
  match L with
  | [] => Some []
  | p :: L' =>
      if skip && negb (pin_available p) then if pin_nonneg p then build_tokens skip L' else None
      else if skip && negb (pin_oracle_ok p) && pin_nonneg p then build_tokens skip L'
      else if pin_available p && pin_oracle_ok p then option_map (cons (pin_info p)) (build_tokens skip L')
      else None
  end.
(** an active spot market account *)
Record serum_in := mkSerumIn { sin_base : Z; sin_quote : Z; sin_oo : openorders; sin_low_ask : fx; sin_high_bid_inv : fx; sin_market : Z }.
Definition add_spot (t : tinfo) (x : fx) : tinfo :=
  mkTI (ti_index t) (ti_maint_aw t) (ti_init_aw t) (ti_scaled_aw t) (ti_maint_lw t) (ti_init_lw t) (ti_scaled_lw t) (ti_prices t) (ti_spot t + x) (ti_liq_ok t).
Fixpoint add_spot_at (L : list tinfo) (i : nat) (x : fx) : list tinfo :=
  match L, i with
  | [], _ => []
  | t :: L', O => add_spot t x :: L'
  | t :: L', S i' => t :: add_spot_at L' i' x
  end.
Fixpoint build_serum (skip : bool) (L : list serum_in) (toks : list tinfo) : option (list tinfo * list sinfo) :=
  match L with
  | [] => Some (toks, [])
  | s :: L' =>
      match token_pos toks (sin_base s), token_pos toks (sin_quote s) with
      | Some b, Some q =>
          let toks' := add_spot_at (add_spot_at toks b (of_int (oo_base_free (sin_oo s)))) q (of_int (oo_quote_free (sin_oo s))) in
          match new_sinfo (sin_oo s) (sin_low_ask s) (sin_high_bid_inv s) b q (sin_market s), build_serum skip L' toks' with
          | Some si, Some (T, R) => Some (T, si :: R)
          | _, _ => None
          end
      | _, _ => if skip then build_serum skip L' toks else None
      end
  end.
Definition build_cache (skip : bool) (L : list pos_in) (O : list serum_in) (P : list pinfo) : option cache :=
  match build_tokens skip L with
  | None => None
  | Some T =>
      match build_serum skip O T with
      | None => None
      | Some (T', R) =>
          if skip && negb (forallb (fun pi => match token_pos T' (pi_settle pi) with Some _ => true | None => false end) P) then None
          else Some (mkHC T' R P)
      end
  end.
