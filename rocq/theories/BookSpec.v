(** Specification vocabulary for placing and cancelling perp orders. *)
From Coq Require Import List ZArith Bool.
From Verif Require Import OrderTree OrderTreeSpec BookArena BookArenaFacts Keys Fixed BookSide BookSideSpec
  EventQueue PerpTypes Book BookLoop BookPlace.
Import ListNotations.
Open Scope Z_scope.

(** all resting orders of one side of a book, as (pegged?, order) *)
Definition resting (sd : side) (bk : orderbook) : list entry :=
  match bs_orders sd (bk_get sd bk) false, bs_orders sd (bk_get sd bk) true with
  | Some F, Some P => map (pair false) F ++ map (pair true) P
  | _, _ => []
  end.

(** what all reachable books satisfy (shown in PerpSystem.v): both sides result from
    tree operations on zeroed accounts; fixed prices are in range; quantities are
    positive; the sequence numbers are distinct and were given out by this market *)
Definition book_ok (cap : nat) (seq : Z) (bk : orderbook) : Prop :=
  forall sd, reachable sd cap (bk_get sd bk) /\
    (forall l, In (false, l) (resting sd bk) -> fixed_ok l) /\
    (forall e, In e (resting sd bk) -> 0 < l_quantity (snd e) /\ 1 <= seqno sd (snd e) <= seq) /\
    NoDup (map (fun e : entry => seqno sd (snd e)) (resting sd bk)).

(** an order that takes part in matching at this oracle price and time: not expired,
    not pegged beyond its limit, and, if pegged, with a representable price *)
Definition live (sd : side) (now oracle : Z) (e : entry) : Prop :=
  matchable sd now oracle e /\ (fst e = true -> representable oracle (snd e) = true).

(** an order of side [sd] and price [p] would trade against an opposing price [p'] *)
Definition crosses (sd : side) (p p' : Z) : Prop := if sd then p' <= p else p <= p'.

Definition fills (L : list event) : list fill :=
  flat_map (fun e => match e with EFill f => [f] | EOut _ => [] end) L.
Definition sumZ (L : list Z) : Z := fold_right Z.add 0 L.
Definition fill_base (L : list fill) : Z := sumZ (map f_qty L).
Definition fill_quote (L : list fill) : Z := sumZ (map (fun f => f_price f * f_qty f) L).

(** fill [f] was made against the resting order [e] *)
Definition made_with (oracle : Z) (f : fill) (e : entry) : Prop :=
  f_maker f = l_owner (snd e) /\ f_maker_id f = l_key (snd e) /\ f_maker_slot f = l_owner_slot (snd e) /\
  f_price f = eff_price oracle e /\ 0 < f_qty f <= l_quantity (snd e) /\
  (f_maker_out f = true <-> f_qty f = l_quantity (snd e)).
(** [L] reports that order [e] of side [sd] left the book with its whole quantity *)
Definition reported_out (sd : side) (L : list event) (e : entry) : Prop :=
  exists u, In (EOut u) L /\ u_side u = sd /\ u_owner u = l_owner (snd e) /\ u_slot u = l_owner_slot (snd e) /\
    u_id u = l_key (snd e) /\ u_qty u = l_quantity (snd e).

(** A successful [new_order] call on a reachable state: [Q] are the pending events
    before it, [new] the ones it appends; [ol] is the oracle price in lots. *)
Record order_call (cap capq : nat) (bk : orderbook) (o : order) (mk : market) (q : evq) (oracle : fx)
  (a : account) (pk now : Z) (limit : nat) (r : place_result) (ol : Z) (Q new : list event) (n n' : Z) : Prop := {
  oc_run : new_order bk o mk q oracle a pk now limit = Some r;
  oc_order : order_wf o;
  oc_clock : clock_ok now;
  oc_seq : 0 <= mk_seq mk;
  oc_book : book_ok cap (mk_seq mk) bk;
  oc_q : qview capq q Q n;
  oc_new : qview capq (r_q r) (Q ++ new) n';
  oc_ol : native_price_to_lot mk oracle = Some ol }.

(** the order [r] says it posted *)
Definition posted (o : order) (r : place_result) (e : entry) : Prop :=
  r_id r = Some (l_key (snd e)) /\ In e (resting (o_side o) (r_book r)).

(** [b] is the best live order of side [os] *)
Definition best_live (os : side) (bk : orderbook) (now ol : Z) (b : entry) : Prop :=
  In b (resting os bk) /\ live os now ol b /\
  forall e', In e' (resting os bk) -> live os now ol e' -> e' = b \/ before os ol b e'.
Definition is_slide (o : order) : bool :=
  match o_params o with PFixed _ PTPostOnlySlide | PPegged _ PTPostOnlySlide _ => true | _ => false end.

(** what the order parameters ask for *)
Definition asks_post_only (o : order) : bool :=
  match o_params o with
  | PMarket | PIoc _ => false
  | PFixed _ ty | PPegged _ ty _ => match ty with PTLimit => false | PTPostOnly | PTPostOnlySlide => true end
  end.
Definition asks_ioc (o : order) : bool := match o_params o with PIoc _ => true | _ => false end.
(** fixed price ([false]) or oracle pegged ([true]) component; none for immediate orders *)
Definition order_component (o : order) : option comp :=
  match o_params o with PMarket | PIoc _ => None | PFixed _ _ => Some false | PPegged _ _ _ => Some true end.

(** what the events [L] say about order [e] of side [sd]: reported out, or the
    quantity filled *)
Definition outs (sd : side) (id : Z) (L : list event) : bool :=
  existsb (fun ev => match ev with EOut u => Bool.eqb (u_side u) sd && (u_id u =? id) | EFill _ => false end) L.
Definition filled_qty (id : Z) (L : list event) : Z :=
  sumZ (map f_qty (filter (fun f => f_maker_id f =? id) (fills L))).
Definition reduce_qty (l : leaf) (q : Z) : leaf :=
  mkLeaf (l_owner_slot l) (l_order_type l) (l_tif l) (l_key l) (l_owner l) (l_quantity l - q)
    (l_timestamp l) (l_peg_limit l) (l_client_id l).
(** what is left of a resting order after the events [L] *)
Definition residual (sd : side) (L : list event) (e : entry) : list entry :=
  if outs sd (l_key (snd e)) L then []
  else if filled_qty (l_key (snd e)) L =? l_quantity (snd e) then []
  else [(fst e, reduce_qty (snd e) (filled_qty (l_key (snd e)) L))].

(** lots of one side of a position *)
Definition side_lots (sd : side) (p : position) : Z := if sd then p_bids p else p_asks p.

(** ** cancelling *)
(** slot [i] of the account was cancelled: either its order rested on the book, owned
    by [pk], and exactly this order was taken off the book, or it is no longer on the
    book (a fill or out event is pending) and only the slot is freed *)
Definition cancelled (bk : orderbook) (a : account) (mkt pk i : Z) (bk' : orderbook) (a' : account) : Prop :=
  exists s p p' q, slot_at a i = Some s /\ s_market s = mkt /\ a_pos a = Some p /\ a_pos a' = Some p' /\
    a_oo a' = upd (a_oo a) (Z.to_nat i) slot0 /\
    resting (negb (s_side s)) bk' = resting (negb (s_side s)) bk /\
    p' = (if s_side s
          then mkPos (p_base p) (p_quote p) (p_bids p - q) (p_asks p) (p_taker_base p) (p_taker_quote p)
                 (p_long_settled p) (p_short_settled p) (p_oneshot p)
          else mkPos (p_base p) (p_quote p) (p_bids p) (p_asks p - q) (p_taker_base p) (p_taker_quote p)
                 (p_long_settled p) (p_short_settled p) (p_oneshot p)) /\
    ((exists l, l_key l = s_id s /\ l_owner l = pk /\ l_owner_slot l = i /\ q = l_quantity l /\
        Permutation.Permutation (resting (s_side s) bk) ((s_comp s, l) :: resting (s_side s) bk')) \/
     (q = 0 /\ s_qty s <> 0 /\ (forall l, In (s_comp s, l) (resting (s_side s) bk) -> l_key l <> s_id s) /\
        resting (s_side s) bk' = resting (s_side s) bk)).

(** slot [s] is one of the orders cancel-all asks for *)
Definition wanted (mkt : Z) (only : option side) (s : slot) : bool :=
  (s_market s =? mkt) && match only with None => true | Some sd => Bool.eqb sd (s_side s) end.
