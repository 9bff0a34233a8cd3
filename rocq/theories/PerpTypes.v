(** Perp market, perp position, open order slots and events: the records the
    order book and the event processing work on.   Models
    src/state/perp_market.rs, mango_account_components.rs, mango_account.rs,
    orderbook/queue.rs, orderbook/order.rs. *)
From Coq Require Import List ZArith Lia Bool.
From Verif Require Import OrderTree OrderTreeSpec Keys Fixed.
Import ListNotations.
Open Scope Z_scope.

(** i64 range check: overflow panics *)
Definition in_i64b (x : Z) : bool := (i64_min <=? x) && (x <=? i64_max).
Definition chk_i64 (x : Z) : option Z := if in_i64b x then Some x else None.

(** perp_market.rs [PerpMarket], the fields used by matching, event processing and
    funding.  [mk_penalty] is [I80F48::from_num(fee_penalty)]. *)
Record market := mkMarket {
  mk_index : Z;
  mk_seq : Z;
  mk_bls : Z;             (* base_lot_size *)
  mk_qls : Z;             (* quote_lot_size *)
  mk_maker_fee : fx;
  mk_taker_fee : fx;
  mk_penalty : fx;
  mk_fees_accrued : fx;
  mk_open_interest : Z;
  mk_long_funding : fx;
  mk_short_funding : fx;
  mk_maint_asset_w : fx;  (* maint_base_asset_weight *)
  mk_maint_liab_w : fx }.

(** mango_account_components.rs [PerpPosition].  The avg-entry/volume display
    fields and the settle limit windows are left out here. *)
Record position := mkPos {
  p_base : Z;             (* base_position_lots *)
  p_quote : fx;           (* quote_position_native *)
  p_bids : Z;             (* bids_base_lots *)
  p_asks : Z;
  p_taker_base : Z;
  p_taker_quote : Z;
  p_long_settled : fx;
  p_short_settled : fx;
  p_oneshot : fx }.       (* oneshot_settle_pnl_allowance *)

(** PerpPosition::default(), mango_account_components.rs:322-363 *)
Definition pos0 : position := mkPos 0 0 0 0 0 0 0 0 0.

(** mango_account_components.rs:803-866 [PerpOpenOrder]; [side_and_tree] as a pair.
    FREE_ORDER_SLOT = PerpMarketIndex::MAX (u16). *)
Definition FREE : Z := 65535.
Record slot := mkSlot { s_market : Z; s_side : side; s_comp : comp; s_id : Z; s_client : Z; s_qty : Z }.
(** :857-863 [clear] *)
Definition slot0 : slot := mkSlot FREE Bid false 0 0 0.

(** a mango account reduced to its position in this perp market ([None]: inactive)
    and its open order slots *)
Record account := mkAcc { a_pos : option position; a_oo : list slot }.

(** queue.rs:172-207 [FillEvent] *)
Record fill := mkFill {
  f_taker_side : side; f_maker_out : bool; f_maker_slot : Z; f_ts : Z; f_seq : Z;
  f_maker : Z; f_maker_id : Z; f_maker_client : Z; f_maker_fee : fx; f_maker_ts : Z;
  f_taker : Z; f_taker_client : Z; f_taker_fee : fx; f_price : Z; f_qty : Z }.
(** queue.rs:302-315 [OutEvent] *)
Record outev := mkOut { u_side : side; u_slot : Z; u_ts : Z; u_seq : Z; u_owner : Z; u_qty : Z; u_id : Z }.
Inductive event := EFill (f : fill) | EOut (u : outev).

(** queue.rs:341-351 [from_leaf_node] *)
Definition out_of_leaf (sd : side) (ts seq : Z) (l : leaf) : event :=
  EOut (mkOut sd (l_owner_slot l) ts seq (l_owner l) (l_quantity l) (l_key l)).

(** order_type.rs PostOrderType / SelfTradeBehavior, order.rs:6-46 *)
Inductive post_type := PTLimit | PTPostOnly | PTPostOnlySlide.
Inductive stb := DecrementTake | CancelProvide | AbortTransaction.
Inductive params :=
| PMarket
| PIoc (price : Z)
| PFixed (price : Z) (ty : post_type)
| PPegged (offset : Z) (ty : post_type) (peg_limit : Z).
Record order := mkOrder {
  o_side : side; o_max_base : Z; o_max_quote : Z; o_client : Z; o_tif : Z; o_stb : stb; o_params : params }.

(** ** mango_account_components.rs PerpPosition methods *)
(** :371-383 *)
Definition add_taker_trade (p : position) (sd : side) (base quote : Z) : position :=
  if sd
  then mkPos (p_base p) (p_quote p) (p_bids p) (p_asks p) (p_taker_base p + base) (p_taker_quote p - quote)
             (p_long_settled p) (p_short_settled p) (p_oneshot p)
  else mkPos (p_base p) (p_quote p) (p_bids p) (p_asks p) (p_taker_base p - base) (p_taker_quote p + quote)
             (p_long_settled p) (p_short_settled p) (p_oneshot p).
(** :385-388 *)
Definition remove_taker_trade (p : position) (base quote : Z) : position :=
  mkPos (p_base p) (p_quote p) (p_bids p) (p_asks p) (p_taker_base p - base) (p_taker_quote p - quote)
        (p_long_settled p) (p_short_settled p) (p_oneshot p).
(** :390-399 *)
Definition adjust_maker_lots (p : position) (sd : side) (base : Z) : position :=
  if sd
  then mkPos (p_base p) (p_quote p) (p_bids p + base) (p_asks p) (p_taker_base p) (p_taker_quote p)
             (p_long_settled p) (p_short_settled p) (p_oneshot p)
  else mkPos (p_base p) (p_quote p) (p_bids p) (p_asks p + base) (p_taker_base p) (p_taker_quote p)
             (p_long_settled p) (p_short_settled p) (p_oneshot p).
(** :777-781 *)
Definition record_trading_fee (p : position) (fee : fx) : position :=
  mkPos (p_base p) (p_quote p - fee) (p_bids p) (p_asks p) (p_taker_base p) (p_taker_quote p)
        (p_long_settled p) (p_short_settled p) (p_oneshot p - fee).
(** :432-445 *)
Definition unsettled_funding (p : position) (mk : market) : fx :=
  if 0 <? p_base p then fmul (mk_long_funding mk - p_long_settled p) (of_int (p_base p))
  else if p_base p <? 0 then fmul (mk_short_funding mk - p_short_settled p) (of_int (p_base p))
  else 0.
(** :448-463 *)
Definition settle_funding (p : position) (mk : market) : position :=
  let fd := unsettled_funding p mk in
  mkPos (p_base p) (p_quote p - fd) (p_bids p) (p_asks p) (p_taker_base p) (p_taker_quote p)
        (mk_long_funding mk) (mk_short_funding mk) (p_oneshot p - fd).

Definition with_oi (mk : market) (oi : Z) : market :=
  mkMarket (mk_index mk) (mk_seq mk) (mk_bls mk) (mk_qls mk) (mk_maker_fee mk) (mk_taker_fee mk) (mk_penalty mk)
    (mk_fees_accrued mk) oi (mk_long_funding mk) (mk_short_funding mk) (mk_maint_asset_w mk) (mk_maint_liab_w mk).
Definition with_fees (mk : market) (fees : fx) : market :=
  mkMarket (mk_index mk) (mk_seq mk) (mk_bls mk) (mk_qls mk) (mk_maker_fee mk) (mk_taker_fee mk) (mk_penalty mk)
    fees (mk_open_interest mk) (mk_long_funding mk) (mk_short_funding mk) (mk_maint_asset_w mk) (mk_maint_liab_w mk).
Definition with_seq (mk : market) (s : Z) : market :=
  mkMarket (mk_index mk) s (mk_bls mk) (mk_qls mk) (mk_maker_fee mk) (mk_taker_fee mk) (mk_penalty mk)
    (mk_fees_accrued mk) (mk_open_interest mk) (mk_long_funding mk) (mk_short_funding mk) (mk_maint_asset_w mk) (mk_maint_liab_w mk).
Definition with_funding (mk : market) (lf sf : fx) : market :=
  mkMarket (mk_index mk) (mk_seq mk) (mk_bls mk) (mk_qls mk) (mk_maker_fee mk) (mk_taker_fee mk) (mk_penalty mk)
    (mk_fees_accrued mk) (mk_open_interest mk) lf sf (mk_maint_asset_w mk) (mk_maint_liab_w mk).

(** :581-597 [record_trade] with [change_base_position] (:425-429) and
    [change_quote_position] (:599-601).  The trade statistics (:466-557) and the
    recurring settle allowance (:560-575) are left out. *)
Definition record_trade (p : position) (mk : market) (base : Z) (quote : fx) : position * market :=
  let nb := p_base p + base in
  (mkPos nb (p_quote p + quote) (p_bids p) (p_asks p) (p_taker_base p) (p_taker_quote p)
         (p_long_settled p) (p_short_settled p) (p_oneshot p),
   with_oi mk (mk_open_interest mk + (Z.abs nb - Z.abs (p_base p)))).

(** queue.rs:261-266 [FillEvent::base_quote_change] *)
Definition base_quote_change (f : fill) (sd : side) : Z * Z :=
  if sd then (f_qty f, - f_price f * f_qty f) else (- f_qty f, f_price f * f_qty f).

(** ** slots *)
Definition slot_active (s : slot) (mkt : Z) : bool := s_market s =? mkt.
(** [perp_order_by_raw_index], mango_account.rs:849-852, and the unchecked
    [perp_order_mut_by_raw_index], :1130-1133, with an index from an event or node.
    An index out of range gives [None]: the checked function fails, and the unchecked
    one panics on accounts without conditional swap slots (a PerpOpenOrder has 96
    bytes, at most 72 follow the slots).  If conditional swap slots follow, the
    unchecked one reads their bytes instead; this is not modelled. *)
Definition slot_at (a : account) (i : Z) : option slot :=
  if i <? 0 then None else nth_error (a_oo a) (Z.to_nat i).
Definition set_slot (a : account) (i : Z) (s : slot) : account :=
  mkAcc (a_pos a) (upd (a_oo a) (Z.to_nat i) s).
Definition set_pos (a : account) (p : position) : account := mkAcc (Some p) (a_oo a).

(** position of the first element satisfying [f] *)
Fixpoint position_of {A} (f : A -> bool) (l : list A) : option nat :=
  match l with
  | [] => None
  | x :: l' => if f x then Some O else option_map S (position_of f l')
  end.
(** mango_account.rs:858-862 *)
Definition next_order_slot (a : account) : option Z :=
  option_map Z.of_nat (position_of (fun s => s_market s =? FREE) (a_oo a)).
(** mango_account.rs:864-873, :875-882 *)
Definition find_client_order (a : account) (mkt cid : Z) : option Z :=
  option_map Z.of_nat (position_of (fun s => slot_active s mkt && (s_client s =? cid)) (a_oo a)).
Definition find_order_id (a : account) (mkt id : Z) : option Z :=
  option_map Z.of_nat (position_of (fun s => slot_active s mkt && (s_id s =? id)) (a_oo a)).

(** mango_account.rs:1228-1246 [add_perp_order] *)
Definition add_perp_order (a : account) (mkt : Z) (sd : side) (c : comp) (l : leaf) : option account :=
  match a_pos a, slot_at a (l_owner_slot l) with
  | Some p, Some _ =>
      Some (set_slot (set_pos a (adjust_maker_lots p sd (l_quantity l))) (l_owner_slot l)
              (mkSlot mkt sd c (l_key l) (l_client_id l) (l_quantity l)))
  | _, _ => None
  end.

(** mango_account.rs:1254-1267 [remove_perp_order].  [perp_position_mut] is only
    modelled for this market: slots of another market are never passed in (the
    callers check, or the id was found on this market's book). *)
Definition remove_perp_order (a : account) (mkt : Z) (i qty : Z) : option account :=
  match slot_at a i with
  | None => None
  | Some s =>
      if (s_market s =? FREE) || negb (s_market s =? mkt) then None
      else match a_pos a with
           | None => None
           | Some p => Some (set_slot (set_pos a (adjust_maker_lots p (s_side s) (- qty))) i slot0)
           end
  end.

(** mango_account.rs:1270-1322 [execute_perp_maker]; the buyback accrual and volume
    counters are left out *)
Definition execute_maker (a : account) (mk : market) (f : fill) : option (account * market) :=
  let sd := negb (f_taker_side f) in
  let '(base, quote_lots) := base_quote_change f sd in
  let quote := fmul (of_int (mk_qls mk)) (of_int quote_lots) in
  let fees := fmul (Z.abs quote) (f_maker_fee f) in
  match a_pos a with
  | None => None
  | Some p =>
      let p := settle_funding p mk in
      let p := record_trading_fee p fees in
      let '(p, mk') := record_trade p mk base quote in
      let p := adjust_maker_lots p sd (- Z.abs base) in
      let a := set_pos a p in
      match slot_at a (f_maker_slot f) with
      | None => None
      | Some s =>
          if slot_active s (mk_index mk) && ((f_maker_id f =? 0) || (s_id s =? f_maker_id f))
          then
            let s' := mkSlot (s_market s) (s_side s) (s_comp s) (s_id s) (s_client s)
                             (Z.max (s_qty s - Z.abs base) 0) in
            Some (set_slot a (f_maker_slot f) (if f_maker_out f then slot0 else s'), mk')
          else Some (a, mk')
      end
  end.

(** mango_account.rs:1325-1344 [execute_perp_taker] *)
Definition execute_taker (a : account) (mk : market) (f : fill) : option (account * market) :=
  match a_pos a with
  | None => None
  | Some p =>
      let p := settle_funding p mk in
      let '(base, quote_lots) := base_quote_change f (f_taker_side f) in
      let p := remove_taker_trade p base quote_lots in
      let quote := fmul (of_int (mk_qls mk)) (of_int quote_lots) in
      let '(p, mk') := record_trade p mk base quote in
      Some (set_pos a p, mk')
  end.

(** mango_account.rs:1346-1375 [execute_perp_out_event] *)
Definition execute_out (a : account) (mkt : Z) (u : outev) : option account :=
  match a_pos a with
  | None => None
  | Some p =>
      let a := set_pos a (adjust_maker_lots p (u_side u) (- u_qty u)) in
      match slot_at a (u_slot u) with
      | None => None
      | Some s =>
          if slot_active s mkt && ((u_id u =? 0) || (s_id s =? u_id u))
          then Some (set_slot a (u_slot u) slot0)
          else Some a
      end
  end.

(** ** perp_market.rs *)
(** :378-381, :383-386; [None]: i64 overflow in to_num *)
Definition lot_to_native_price (mk : market) (price : Z) : fx :=
  fdiv (fmul (of_int price) (of_int (mk_qls mk))) (of_int (mk_bls mk)).
Definition native_price_to_lot (mk : market) (price : fx) : option Z :=
  chk_i64 (to_int (fdiv (fmul price (of_int (mk_bls mk))) (of_int (mk_qls mk)))).
(** :389-399 *)
Definition inside_price_limit (mk : market) (sd : side) (native oracle : fx) : bool :=
  if sd then native <=? fmul (mk_maint_liab_w mk) oracle
  else fmul (mk_maint_asset_w mk) oracle <=? native.

(** ** order.rs *)
(** :73-80 *)
Definition is_post_only (o : order) : bool :=
  match o_params o with
  | PFixed _ PTLimit | PPegged _ PTLimit _ => false
  | PFixed _ _ | PPegged _ _ _ => true
  | _ => false
  end.
(** :83-89 *)
Definition post_target (o : order) : option comp :=
  match o_params o with
  | PFixed _ _ => Some false
  | PPegged _ _ _ => Some true
  | _ => None
  end.
(** :68-70 *)
Definition needs_penalty (o : order) : bool := match o_params o with PIoc _ => true | _ => false end.
(** :161-166 *)
Definition peg_limit (o : order) : Z := match o_params o with PPegged _ _ l => l | _ => -1 end.
(** :179-186 [post_only_slide_limit] *)
Definition slide_limit (sd : side) (best limit : Z) : option Z :=
  if sd then match chk_i64 (best - 1) with Some b => Some (Z.min limit b) | None => None end
  else match chk_i64 (best + 1) with Some b => Some (Z.max limit b) | None => None end.
(** :93-115 [price_for_order_type]; [best_other]: best valid price on the other side *)
Definition price_for_order_type (o : order) (price : Z) (ty : post_type) (best_other : option Z) : option Z :=
  match ty, best_other with
  | PTPostOnlySlide, Some b => slide_limit (o_side o) b price
  | _, _ => Some price
  end.
(** :119-158 [price]: (price_lots, price_data) *)
Definition order_price (o : order) (oracle_lots : Z) (best_other : option Z) : option (Z * Z) :=
  match
    (match o_params o with
     | PMarket => Some (if o_side o then i64_max else 1)
     | PIoc p => Some p
     | PFixed p ty => price_for_order_type o p ty best_other
     | PPegged off ty _ =>
         match chk_i64 (oracle_lots + off) with
         | None => None
         | Some p => price_for_order_type o p ty best_other
         end
     end)
  with
  | None => None
  | Some price =>
      match
        (match o_params o with
         | PPegged _ _ _ =>
             match chk_i64 (price - oracle_lots) with
             | None => None
             | Some d => Some (oracle_pegged_price_data d)
             end
         | _ => fixed_price_data price
         end)
      with
      | None => None
      | Some pd => if 1 <=? price then Some (price, pd) else None
      end
  end.
