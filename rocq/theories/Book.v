(** Matching and cancelling.   Models src/state/orderbook/book.rs and the event
    processing of instructions/perp_consume_events.rs.
    A result [None] is an error or panic: the transaction reverts. *)
From Coq Require Import List ZArith Lia Bool.
From Verif Require Import OrderTree OrderTreeSpec BookArena Keys Fixed BookSide EventQueue PerpTypes.
Import ListNotations.
Open Scope Z_scope.

Definition evq := queue event.

(** [event_queue.push_back(..).unwrap()] *)
Definition push (q : evq) (e : event) : option evq :=
  match q_push q e with Some (inl q') => Some q' | _ => None end.

(** book.rs:17-20 [Orderbook] *)
Record orderbook := mkBook { bk_bids : bookside; bk_asks : bookside }.
Definition bk_get (sd : side) (b : orderbook) : bookside := if sd then bk_bids b else bk_asks b.
Definition bk_set (sd : side) (s : bookside) (b : orderbook) : orderbook :=
  if sd then mkBook s (bk_asks b) else mkBook (bk_bids b) s.

(** the local variables of the matching loop, book.rs:78-86 *)
Record mstate := mkM {
  m_rem_base : Z; m_rem_quote : Z; m_dec_quote : Z;
  m_change : list (comp * Z * Z);  (* component, key, new quantity *)
  m_delete : list (comp * Z);
  m_dropped : nat;
  m_q : evq;
  m_limit : nat;                   (* u8 *)
  m_post : option comp }.

Definition DROP_EXPIRED_ORDER_LIMIT : nat := 5.

Record mctx := mkCtx {
  x_order : order; x_market : market; x_pk : Z; x_now : Z; x_price : Z }.

(** [FillEvent::new], queue.rs:211-255, as called in book.rs:177-203; the fees are
    stored as f32 *)
Definition make_fill (x : mctx) (i : item) (own : bool) (out : bool) (qty seq : Z) : event :=
  let l := it_leaf i in
  EFill (mkFill (o_side (x_order x)) out (l_owner_slot l) (x_now x) seq
    (l_owner l) (l_key l) (l_client_id l)
    (f32_round (if own then 0 else mk_maker_fee (x_market x)))
    (l_timestamp l) (x_pk x) (o_client (x_order x))
    (f32_round (if own then 0 else mk_taker_fee (x_market x)))
    (it_price i) qty).

(** one pass through the loop body, book.rs:88-213.  [inl st]: go on with the next
    item, [inr st]: break; [None]: error *)
Definition match_step (x : mctx) (i : item) (st : mstate) : option (mstate + mstate) :=
  let o := x_order x in
  let sd := o_side o in
  let l := it_leaf i in
  if (m_rem_base st =? 0) || (m_rem_quote st =? 0) then Some (inr st)
  else if negb (item_valid i) then
    if Nat.ltb (m_dropped st) DROP_EXPIRED_ORDER_LIMIT then
      match push (m_q st) (out_of_leaf (negb sd) (x_now x) (q_seq (m_q st)) l) with
      | None => None
      | Some q' => Some (inl (mkM (m_rem_base st) (m_rem_quote st) (m_dec_quote st)
                        (m_change st) (m_delete st ++ [(it_pegged i, l_key l)]) (S (m_dropped st))
                        q' (m_limit st) (m_post st)))
      end
    else Some (inl st)
  else if negb (is_price_within_limit sd (it_price i) (x_price x)) then Some (inr st)
  else if is_post_only o || Nat.eqb (m_limit st) 0 then
    Some (inr (mkM (m_rem_base st) (m_rem_quote st) (m_dec_quote st)
                   (m_change st) (m_delete st) (m_dropped st) (m_q st) (m_limit st) None))
  else
    let max_by_quote := Z.quot (m_rem_quote st) (it_price i) in
    if max_by_quote =? 0 then Some (inr st)
    else
      let mb := Z.min (Z.min (m_rem_base st) (l_quantity l)) max_by_quote in
      let mq := mb * it_price i in
      let own := x_pk x =? l_owner l in
      match own, o_stb o with
      | true, CancelProvide =>
          match push (m_q st) (out_of_leaf (negb sd) (x_now x) (q_seq (m_q st)) l) with
          | None => None
          | Some q' => Some (inl (mkM (m_rem_base st) (m_rem_quote st) (m_dec_quote st)
                            (m_change st) (m_delete st ++ [(it_pegged i, l_key l)]) (m_dropped st)
                            q' (m_limit st) (m_post st)))
          end
      | true, AbortTransaction => None
      | _, _ =>
          let nq := l_quantity l - mb in
          let out := nq =? 0 in
          match push (m_q st) (make_fill x i own out mb (q_seq (m_q st))) with
          | None => None
          | Some q' =>
              Some (inl (mkM (m_rem_base st - mb) (m_rem_quote st - mq)
                    (if own then m_dec_quote st + mq else m_dec_quote st)
                    (if out then m_change st else m_change st ++ [(it_pegged i, l_key l, nq)])
                    (if out then m_delete st ++ [(it_pegged i, l_key l)] else m_delete st)
                    (m_dropped st) q' (m_limit st - 1) (m_post st)))
          end
      end.

Fixpoint match_loop (x : mctx) (L : list item) (st : mstate) : option mstate :=
  match L with
  | [] => Some st
  | i :: L' =>
      match match_step x i st with
      | None => None
      | Some (inr st') => Some st'
      | Some (inl st') => match_loop x L' st'
      end
  end.

(** book.rs:466-500 [apply_fees], without the buyback accrual and volume counters *)
Definition apply_fees (mk : market) (p : position) (quote_lots : Z) : option (market * position) :=
  if quote_lots <? 0 then None
  else
    let quote_native := of_int (mk_qls mk * quote_lots) in
    let maker_fees := fmul quote_native (mk_maker_fee mk) in
    let taker_fees := fmul quote_native (mk_taker_fee mk) in
    if taker_fees <? 0 then None
    else Some (with_fees mk (mk_fees_accrued mk + (taker_fees + maker_fees)), record_trading_fee p taker_fees).

(** book.rs:503-513 [apply_penalty] *)
Definition apply_penalty (mk : market) (p : position) : market * position :=
  (with_fees mk (mk_fees_accrued mk + mk_penalty mk), record_trading_fee p (mk_penalty mk)).

(** book.rs:244-252: quantity changes through the handles *)
Fixpoint apply_changes (sd : side) (s : bookside) (cs : list (comp * Z * Z)) : option bookside :=
  match cs with
  | [] => Some s
  | (c, k, q) :: cs' =>
      match bs_step sd s (OSetQty c k q) with
      | Some (s', _) => apply_changes sd s' cs'
      | None => None
      end
  end.
(** book.rs:253-255 *)
Fixpoint apply_deletes (sd : side) (s : bookside) (ds : list (comp * Z)) : option bookside :=
  match ds with
  | [] => Some s
  | (c, k) :: ds' =>
      match bs_step sd s (ORemove c k) with
      | Some (s', OutRemoved (Some _)) => apply_deletes sd s' ds'
      | _ => None
      end
  end.

(** book.rs:275-331: put the remainder [qty] on the book *)
Definition post_order (o : order) (mkt : Z) (c : comp) (s : bookside) (q : evq) (a : account)
  (pk now oracle_lots price id qty : Z) : option (bookside * evq * account) :=
  let sd := o_side o in
  match bs_remove_one_expired sd s c now with
  | None => None
  | Some (s, x) =>
      match (match x with
             | None => Some q
             | Some l => push q (out_of_leaf sd now (q_seq q) l)
             end) with
      | None => None
      | Some q =>
          match (if is_full (bs_arena s) then
                   match bs_remove_worst sd s now oracle_lots with
                   | Some (s', Some (l, wp)) =>
                       if is_price_better sd price wp then
                         match push q (out_of_leaf sd now (q_seq q) l) with
                         | Some q' => Some (s', q')
                         | None => None
                         end
                       else None
                   | _ => None
                   end
                 else Some (s, q)) with
          | None => None
          | Some (s, q) =>
              match next_order_slot a with
              | None => None
              | Some sl =>
                  let l := mkLeaf sl 0 (o_tif o) id pk qty now (peg_limit o) (o_client o) in
                  match bs_step sd s (OInsert c l) with
                  | None | Some (_, OutFull) => None
                  | Some (s', _) =>
                      match add_perp_order a mkt sd c l with
                      | None => None
                      | Some a' => Some (s', q, a')
                      end
                  end
              end
          end
      end
  end.

Record place_result := mkRes {
  r_book : orderbook; r_market : market; r_q : evq; r_acc : account; r_id : option Z }.

(** book.rs:43-340 [new_order]; [oracle] is the native oracle price.
    [bs_items] runs the lazy iterator to its end, which never fails (C07). *)
Definition new_order (bk : orderbook) (o : order) (mk : market) (q : evq) (oracle : fx)
  (a : account) (pk now : Z) (limit : nat) : option place_result :=
  let sd := o_side o in
  let os := negb sd in
  match native_price_to_lot mk oracle with
  | None => None
  | Some oracle_lots =>
  match bs_items os (bk_get os bk) now oracle_lots with
  | None => None
  | Some L =>
  match order_price o oracle_lots (best_price (filter item_valid L)) with
  | None => None
  | Some (price, pd) =>
  match gen_order_id (mk_seq mk) sd pd with
  | None => None
  | Some (seq, id) =>
  match a_pos a with
  | None => None
  | Some p =>
  let mk := with_seq mk seq in
  let '(mk, p) := if needs_penalty o then apply_penalty mk p else (mk, p) in
  match match_loop (mkCtx o mk pk now price) L
          (mkM (o_max_base o) (o_max_quote o) 0 [] [] 0 q limit (post_target o)) with
  | None => None
  | Some m =>
  let quote_taken := o_max_quote o - m_rem_quote m in
  let base_taken := o_max_base o - m_rem_base m in
  if (quote_taken <? 0) || (base_taken <? 0) then None
  else
  match (if (0 <? quote_taken) || (0 <? base_taken)
         then apply_fees mk (add_taker_trade p sd base_taken quote_taken) (quote_taken - m_dec_quote m)
         else Some (mk, p)) with
  | None => None
  | Some (mk, p) =>
  match apply_changes os (bk_get os bk) (m_change m) with
  | None => None
  | Some s1 =>
  match apply_deletes os s1 (m_delete m) with
  | None => None
  | Some s2 =>
  let bk := bk_set os s2 bk in
  let qty := Z.min (m_rem_base m) (Z.quot (m_rem_quote m) price) in
  let a := set_pos a p in
  match (if qty <=? 0 then None else m_post m) with
  | None => Some (mkRes bk mk (m_q m) a None)
  | Some c =>
      if inside_price_limit mk sd (lot_to_native_price mk price) oracle then
        match post_order o (mk_index mk) c (bk_get sd bk) (m_q m) a pk now oracle_lots price id qty with
        | None => None
        | Some (s', q', a') => Some (mkRes (bk_set sd s' bk) mk q' a' (Some id))
        end
      else Some (mkRes bk mk (m_q m) a None)
  end end end end end end end end end end.

(** book.rs:398-439 [cancel_order_by_slot].  [inr tt]: the PerpOrderIdNotFound error
    that [cancel_all_orders] tolerates *)
Definition cancel_by_slot (bk : orderbook) (a : account) (mkt pk i : Z)
  : option ((orderbook * account) + unit) :=
  match slot_at a i with
  | None => None
  | Some s =>
      if negb (slot_active s mkt) then None
      else
        match bs_step (s_side s) (bk_get (s_side s) bk) (ORemove (s_comp s) (s_id s)) with
        | Some (b', OutRemoved (Some l)) =>
            if (l_owner_slot l =? i) && (l_owner l =? pk) then
              match remove_perp_order a mkt i (l_quantity l) with
              | None => None
              | Some a' => Some (inl (bk_set (s_side s) b' bk, a'))
              end
            else None
        | Some (_, OutRemoved None) =>
            if s_qty s =? 0 then Some (inr tt)
            else match remove_perp_order a mkt i 0 with
                 | None => None
                 | Some a' => Some (inl (bk, a'))
                 end
        | _ => None
        end
  end.

(** book.rs:442-461 [cancel_order_by_id] (not called by any instruction) *)
Definition cancel_by_id (bk : orderbook) (a : account) (mkt id : Z) (sd : side) (c : comp)
  (expected_owner : option Z) : option (orderbook * account * leaf) :=
  match bs_step sd (bk_get sd bk) (ORemove c id) with
  | Some (b', OutRemoved (Some l)) =>
      if match expected_owner with None => true | Some ow => l_owner l =? ow end then
        match remove_perp_order a mkt (l_owner_slot l) (l_quantity l) with
        | None => None
        | Some a' => Some (bk_set sd b' bk, a', l)
        end
      else None
  | _ => None
  end.

(** book.rs:345-395 [cancel_all_orders]: the slots from [i] on, [n] of them;
    [limit] is a u8, 0 - 1 panics *)
Fixpoint cancel_all (bk : orderbook) (a : account) (mkt pk : Z) (limit : nat) (only : option side)
  (i : Z) (n : nat) : option (orderbook * account) :=
  match n with
  | O => Some (bk, a)
  | S n' =>
      match slot_at a i with
      | None => None
      | Some s =>
          if negb (slot_active s mkt) then cancel_all bk a mkt pk limit only (i + 1) n'
          else if match only with None => false | Some sd => negb (Bool.eqb sd (s_side s)) end
          then cancel_all bk a mkt pk limit only (i + 1) n'
          else
            match cancel_by_slot bk a mkt pk i with
            | None => None
            | Some r =>
                let '(bk, a) := match r with inl x => x | inr _ => (bk, a) end in
                match limit with
                | O => None
                | S O => Some (bk, a)
                | S limit' => cancel_all bk a mkt pk limit' only (i + 1) n'
                end
            end
      end
  end.
