(** The money side of a perp market: funding updates, pnl and fee settlement, both perp
    liquidations, loss socialization, forced closing and market edits, as instructions on
    the system of PerpSystem.   Each instruction is modelled by the functions below and
    then written into the system with the primitive updates of [PerpSystem.op], so every
    state reached here is also a state reached there.
    The settle-limit fields of positions are inputs of the instructions ([limits]): the
    results below hold whatever their values.  Health values and oracle prices are inputs
    as well. *)
From Coq Require Import List ZArith Lia Bool.
From Verif Require Import OrderTree Keys Fixed BookSide EventQueue PerpTypes Book PerpSystem SettleLimit.
Import ListNotations.
Open Scope Z_scope.

(** perp_market.rs fields min_funding, max_funding, impact_quantity *)
Record fcfg := mkFC { fc_min : fx; fc_max : fx; fc_impact : Z }.

(** perp_market.rs:319-334: the funding rate per day, from the prices at which
    [impact_quantity] could be sold and bought.  [None]: division by zero, or
    [clamp] with min > max panics. *)
Definition funding_rate (mk : market) (fc : fcfg) (oracle : fx) (bid ask : option Z) : option fx :=
  match bid, ask with
  | Some b, Some a =>
      if (oracle =? 0) || (mk_bls mk =? 0) || (fc_max fc <? fc_min fc) then None
      else
        let diff := fdiv (lot_to_native_price mk (Z.quot (b + a) 2)) oracle - fone in
        Some (Z.max (fc_min fc) (Z.min (fc_max fc) diff))
  | Some _, None => Some (fc_max fc)
  | None, Some _ => Some (fc_min fc)
  | None, None => Some 0
  end.
Definition MAX_FUNDING_STEP : Z := 3600.
Definition DAY : Z := 86400.
(** perp_market.rs:303-375 [update_funding_and_stable_price]: the market and
    [funding_last_updated].  The stable price update (:357-358) is left out. *)
Definition update_funding (bk : orderbook) (mk : market) (fc : fcfg) (last : Z) (oracle : fx) (now : Z) : option (market * Z) :=
  if now <=? last then Some (mk, last)
  else
    match native_price_to_lot mk oracle with
    | None => None
    | Some ol =>
        match bs_valid_items Bid (bk_bids bk) now ol, bs_valid_items Ask (bk_asks bk) now ol with
        | Some B, Some A =>
            match funding_rate mk fc oracle (impact_price (fc_impact fc) B) (impact_price (fc_impact fc) A) with
            | None => None
            | Some rate =>
                let tf := fdiv (of_int (Z.min (now - last) MAX_FUNDING_STEP)) (of_int DAY) in
                let delta := fmul (fmul (fmul oracle (of_int (mk_bls mk))) rate) tf in
                Some (with_funding mk (mk_long_funding mk + delta) (mk_short_funding mk + delta), now)
            end
        | _, _ => None
        end
    end.

(** perp_market.rs:404-421 [socialize_loss]; [loss <= 0] *)
Definition socialize_loss (mk : market) (loss : fx) : option (market * fx) :=
  if 0 <? loss then None
  else
    let s := if mk_open_interest mk =? 0 then 0 else fdiv loss (of_int (mk_open_interest mk)) in
    Some (with_funding mk (mk_long_funding mk - s) (mk_short_funding mk + s), s).

(** perp_liq_negative_pnl_or_bankruptcy.rs:218-440 [liquidation_action]: the perp side.
    [max_settle] is the liqee's [perp_max_settle], [for_health] the result of
    [spot_amount_given_for_health_zero] (:333-342), [cover] the insurance vault amount
    available to this market (:357-361). *)
Record liqneg := mkLN {
  ln_settled : fx;      (* settled against the liqor's tokens *)
  ln_ins : Z;           (* insurance tokens paid to the liqor *)
  ln_ins_liab : fx;     (* loss taken over for them *)
  ln_soc : fx;          (* socialized loss *)
  ln_market : market; ln_liqee : position; ln_liqor : position }.
Definition liq_negative (mk : market) (c : scfg) (pe : position) (le : limits) (po : position)
    (price max_settle : fx) (max_liab : Z) (for_health sprice iprice liq_fee : fx) (cover now : Z) : option liqneg :=
  let pe := settle_funding pe mk in
  let po := settle_funding po mk in
  let pnl := unsettled_pnl pe mk price in
  if negb (pnl <? 0) then None
  else
    match update_settle_limit le c now with
    | None => None
    | Some le =>
        let able := apply_pnl_settle_limit pe le mk c pnl in
        let max_e := Z.max (Z.min max_settle (- able)) 0 in
        let s := Z.max (Z.min max_e (of_int max_liab)) 0 in
        let '(pe, le, po) :=
          if 0 <? s
          then let '(pe, le) := record_settle pe le mk c (- s) in (pe, le, record_liquidation_quote_change po (- s))
          else (pe, le, po) in
        let pnl := unsettled_pnl pe mk price in
        let rest := of_int max_liab - s in
        if (s =? max_e) && (pnl <? 0) then
          let from_liqee := Z.max (Z.min (- pnl) for_health) 0 in
          let to_liqor := Z.max (Z.min from_liqee rest) 0 in
          let pf := fmul sprice (fone + liq_fee) in
          if (iprice =? 0) || (pf =? 0) then None
          else
            let want := ceil_int (fdiv (fmul to_liqor pf) iprice) in
            if want <? 0 then None
            else
              let ins := Z.min want cover in
              let ins_liab := Z.min (fdiv (fmul (of_int ins) iprice) pf) to_liqor in
              let '(pe, le, po) :=
                if 0 <? ins
                then let '(pe, le) := record_settle pe le mk c (- ins_liab) in
                     (pe, le, record_liquidation_quote_change po (- ins_liab))
                else (pe, le, po) in
              let remaining := from_liqee - ins_liab in
              if (ins =? cover) && (0 <? remaining) then
                match socialize_loss mk (- remaining) with
                | None => None
                | Some (mk', _) =>
                    let '(pe, le) := record_settle pe le mk' c (- remaining) in
                    Some (mkLN s ins ins_liab remaining mk' pe po)
                end
              else Some (mkLN s ins ins_liab 0 mk pe po)
        else Some (mkLN s 0 0 0 mk pe po)
    end.

(** perp_liq_base_or_positive_pnl.rs:594-620: settle limits handed to the liqor *)
Definition takeover_limits (limit : Z) (oneshot pnl transfer : fx) : Z * Z :=
  let oneshot_pos := Z.max (ceil_int oneshot) 0 in
  let recurring := Z.max (limit - oneshot_pos) 0 in
  let settle := to_int transfer in
  let total := Z.max (Z.max (ceil_int pnl) 1) settle in
  let mx := ceil_int transfer in
  let r := Z.max (Z.min (Z.quot (recurring * settle) total) mx) 1 in
  (r, Z.max (Z.min (Z.quot (oneshot_pos * settle) total) (mx - r)) 0).

(** perp_liq_base_or_positive_pnl.rs:82-92 and :218-670 [liquidation_action]: the perp
    side.  How many lots ([reduction]) and how much pnl ([transfer]) move is decided by
    the five health steps (:330-545), which are not modelled: both are inputs, with the
    bound asserted at :552.  [le], [lo]: limits of liqee and liqor. *)
Record liqbase := mkLB {
  lb_base : Z; lb_quote_e : fx; lb_quote_o : fx; lb_fee : fx; lb_token : fx;
  lb_market : market; lb_liqee : position; lb_liqor : position }.
Definition liq_base (mk : market) (c : scfg) (pe : position) (le : limits) (po : position) (lo : limits)
    (price : fx) (reduction : Z) (transfer : fx) (liq_fee plat_fee pnl_fee : fx) (now : Z) : option liqbase :=
  if negb ((p_taker_base pe =? 0) && (p_taker_quote pe =? 0)) then None
  else
    let pe := settle_funding pe mk in
    let po := settle_funding po mk in
    match update_settle_limit le c now with
    | None => None
    | Some le =>
        let limit := snd (settle_limit pe le mk c) in
        if negb ((0 <=? reduction) && (reduction <=? Z.abs (p_base pe))) || (transfer <? 0) then None
        else
          let per_lot := fmul (of_int (mk_bls mk)) price in
          let long := 0 <? p_base pe in
          let f_liqor := if long then fone - liq_fee else fone + liq_fee in
          let f_all := if long then f_liqor - plat_fee else f_liqor + plat_fee in
          let base := if long then - reduction else reduction in
          let q := fmul (- of_int base) per_lot in
          let qe := fmul q f_all in
          let qo := fmul (- q) f_liqor in
          let '(pe, mk1) := if base =? 0 then (pe, mk) else record_trade pe mk base qe in
          let '(po, mk2) := if base =? 0 then (po, mk1) else record_trade po mk1 (- base) qo in
          let fee := Z.max (- qo - qe) 0 in
          let mk3 := with_fees mk2 (mk_fees_accrued mk2 + fee) in
          if 0 <? transfer then
            let '(r, os) := takeover_limits limit (p_oneshot pe) (unsettled_pnl pe mk3 price) transfer in
            let '(po, _) := record_liquidation_pnl_takeover po lo transfer r os in
            let '(pe, _) := record_settle pe le mk3 c transfer in
            Some (mkLB base qe qo fee (fmul transfer (fone - pnl_fee)) mk3 pe po)
          else Some (mkLB base qe qo fee 0 mk3 pe po)
    end.

(** ** instructions *)
Record mstate := mkMS { ms_y : sys; ms_last : Z (* funding_last_updated *) }.
Inductive mop :=
| MOp (x : op)                                   (* orders, events, account instructions *)
| MFunding (fc : fcfg) (oracle : fx) (now : Z)   (* perp_update_funding.rs *)
| MEdit (maker taker penalty aw lw : fx)         (* perp_edit_market.rs *)
| MSettlePnl (a b : Z) (c : scfg) (la lb : limits) (price sprice bmax liq_end maint now : Z)
| MSettleFees (pk : Z) (c : scfg) (l : limits) (price max_amount : Z)
| MLiqNegative (liqor liqee : Z) (c : scfg) (le : limits) (price max_settle : fx) (max_liab : Z)
    (for_health sprice iprice liq_fee : fx) (cover now : Z)
| MLiqBase (liqor liqee : Z) (c : scfg) (le lo : limits) (price : fx) (reduction : Z) (transfer : fx)
    (liq_fee plat_fee pnl_fee : fx) (now : Z)
| MForceClose (a b : Z) (price : fx).

(** the instructions already complete in PerpSystem *)
Definition complete (x : op) : bool :=
  match x with OpTrade _ _ _ _ _ | OpQuote _ _ _ | OpMarket _ _ _ _ _ _ _ _ | OpFunding _ => false | _ => true end.

Definition get_position (y : sys) (pk : Z) : option position :=
  match aget (y_accs y) pk with Some a => a_pos a | None => None end.
(** after [ensure_perp_position] *)
Definition get_or_new (y : sys) (pk : Z) : option position :=
  match aget (y_accs y) pk with Some a => a_pos (ensure_position a) | None => None end.
Definition put_quote (pk : Z) (p : position) : op := OpQuote pk (p_quote p) (p_oneshot p).
Definition put_market (mk : market) : op :=
  OpMarket (mk_long_funding mk) (mk_short_funding mk) (mk_maker_fee mk) (mk_taker_fee mk) (mk_penalty mk)
    (mk_fees_accrued mk) (mk_maint_asset_w mk) (mk_maint_liab_w mk).

(** the state updates of an instruction, the new [funding_last_updated], and the losses it
    socialized, each with the open interest at that time *)
Definition updates (m : mstate) (x : mop) : option (list op * Z * list (fx * Z)) :=
  let y := ms_y m in
  let mk := y_mk y in
  match x with
  | MOp o => if complete o then Some ([o], ms_last m, []) else None
  | MFunding fc oracle now =>
      match update_funding (y_bk y) mk fc (ms_last m) oracle now with
      | Some (mk', last') => Some ([put_market mk'], last', [])
      | None => None
      end
  | MEdit maker taker penalty aw lw =>
      Some ([OpMarket (mk_long_funding mk) (mk_short_funding mk) maker taker penalty (mk_fees_accrued mk) aw lw], ms_last m, [])
  | MSettlePnl a b c la lb price sprice bmax liq_end maint now =>
      if a =? b then None
      else match get_position y a, get_position y b with
           | Some pa, Some pb =>
               match settle_pnl mk c pa la pb lb price sprice bmax liq_end maint now with
               | Some r => Some ([OpFunding a; OpFunding b; put_quote a (fst (st_a r)); put_quote b (fst (st_b r))], ms_last m, [])
               | None => None
               end
           | _, _ => None
           end
  | MSettleFees pk c l price max_amount =>
      match get_position y pk with
      | Some p =>
          match settle_fees mk c p l price max_amount with
          | Some (p', _, mk', _) => Some ([OpFunding pk; put_quote pk p'; put_market mk'], ms_last m, [])
          | None => None
          end
      | None => None
      end
  | MLiqNegative liqor liqee c le price max_settle max_liab for_health sprice iprice liq_fee cover now =>
      if liqor =? liqee then None
      else match get_or_new y liqor, get_position y liqee with
           | Some po, Some pe =>
               match liq_negative mk c pe le po price max_settle max_liab for_health sprice iprice liq_fee cover now with
               | Some r => Some ([OpActivate liqor; OpFunding liqee; OpFunding liqor; put_market (ln_market r);
                                  put_quote liqee (ln_liqee r); put_quote liqor (ln_liqor r)], ms_last m,
                                 if 0 <? ln_soc r then [(ln_soc r, mk_open_interest mk)] else [])
               | None => None
               end
           | _, _ => None
           end
  | MLiqBase liqor liqee c le lo price reduction transfer liq_fee plat_fee pnl_fee now =>
      if liqor =? liqee then None
      else match get_or_new y liqor, get_position y liqee with
           | Some po, Some pe =>
               match liq_base mk c pe le po lo price reduction transfer liq_fee plat_fee pnl_fee now with
               | Some r => Some ([OpActivate liqor; OpFunding liqee; OpFunding liqor;
                                  OpTrade liqee liqor (lb_base r) (lb_quote_e r) (lb_quote_o r); put_market (lb_market r);
                                  put_quote liqee (lb_liqee r); put_quote liqor (lb_liqor r)], ms_last m, [])
               | None => None
               end
           | _, _ => None
           end
  | MForceClose a b price => (* perp_force_close_position.rs:11-75: funding is not settled *)
      match get_position y a, get_position y b with
      | Some pa, Some pb =>
          if (0 <? p_base pa) && (p_base pb <? 0) then
            let t := Z.max (Z.min (p_base pa) (Z.abs (p_base pb))) 0 in
            let q := fmul (of_int (t * mk_bls mk)) price in
            Some ([OpTrade a b (- t) q (- q)], ms_last m, [])
          else None
      | _, _ => None
      end
  end.

Definition mstep (m : mstate) (x : mop) : option (mstate * list (fx * Z)) :=
  match updates m x with
  | Some (L, last', soc) =>
      match run_ops (ms_y m) L with Some y' => Some (mkMS y' last', soc) | None => None end
  | None => None
  end.
Fixpoint mrun (m : mstate) (L : list mop) : option (mstate * list (fx * Z)) :=
  match L with
  | [] => Some (m, [])
  | x :: L' => match mstep m x with
               | Some (m', soc) =>
                   match mrun m' L' with Some (m'', soc') => Some (m'', soc ++ soc') | None => None end
               | None => None
               end
  end.
