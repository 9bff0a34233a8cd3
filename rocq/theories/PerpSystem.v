(** Histories of one perp market: any number of mango accounts, the book, the event
    queue and the market account, and every instruction that touches their order and
    position bookkeeping.  [None] is a failing instruction (no effect). *)
From Coq Require Import List ZArith Lia Bool.
From Verif Require Import OrderTree OrderTreeSpec BookArena Keys Fixed BookSide EventQueue PerpTypes Book BookKeep.
Import ListNotations.
Open Scope Z_scope.

Record sys := mkSys { y_bk : orderbook; y_mk : market; y_q : evq; y_accs : list (Z * account) }.

(** account lookup by address *)
Fixpoint aget (A : list (Z * account)) (pk : Z) : option account :=
  match A with [] => None | (k, a) :: A' => if k =? pk then Some a else aget A' pk end.
Fixpoint aset (A : list (Z * account)) (pk : Z) (a : account) : list (Z * account) :=
  match A with
  | [] => [(pk, a)]
  | (k, b) :: A' => if k =? pk then (k, a) :: A' else (k, b) :: aset A' pk a
  end.
Definition adel (A : list (Z * account)) (pk : Z) : list (Z * account) :=
  filter (fun x => negb (fst x =? pk)) A.

Definition with_acc (y : sys) (pk : Z) (a : account) : sys := mkSys (y_bk y) (y_mk y) (y_q y) (aset (y_accs y) pk a).

(** mango_account.rs:1142-1167 [ensure_perp_position]; running out of position
    slots (an error) is left out *)
Definition ensure_position (a : account) : account :=
  match a_pos a with Some _ => a | None => mkAcc (Some pos0) (a_oo a) end.

(** mango_account.rs:1632-1643, 1648: number of open-order slots up to the last used
    one, and the new slot array *)
Fixpoint blocked (L : list slot) : nat :=
  match L with
  | [] => O
  | s :: L' => match blocked L' with
               | O => if s_market s =? FREE then O else 1
               | S n => S (S n)
               end
  end.
Definition resize_slots (L : list slot) (n : nat) : option (list slot) :=
  if Nat.leb (blocked L) n then Some (firstn (blocked L) L ++ repeat slot0 (n - blocked L)) else None.

Inductive op :=
| OpCreate (pk : Z) (n : nat)
| OpClose (pk : Z)
| OpResize (pk : Z) (n : nat)
| OpOther (pk i : Z) (s : slot)
| OpPlace (pk : Z) (o : order) (oracle : fx) (now : Z) (limit : nat)
| OpCancelId (pk id : Z)
| OpCancelClient (pk cid : Z)
| OpCancelAll (pk : Z) (only : option side) (limit : nat)
| OpConsume
| OpTrade (pk1 pk2 base : Z) (quote1 quote2 : fx)
| OpQuote (pk : Z) (quote oneshot : fx)
| OpFunding (pk : Z)
| OpDeactivate (pk : Z)
| OpMarket (lf sf maker taker penalty fees aw lw : fx)
| OpActivate (pk : Z).

(** perp_cancel_order.rs, perp_cancel_order_by_client_order_id.rs: the tolerated
    "not found" of [cancel_order_by_slot] is an error here *)
Definition cancel_slot (y : sys) (pk : Z) (a : account) (i : Z) : option sys :=
  match cancel_by_slot (y_bk y) a (mk_index (y_mk y)) pk i with
  | Some (inl (bk', a')) => Some (mkSys bk' (y_mk y) (y_q y) (aset (y_accs y) pk a'))
  | _ => None
  end.

(** perp_consume_events.rs:47-170, one event; [None] if the instruction fails or
    stops because an account is missing.  The skipping of events of force-closed
    accounts in testing groups is left out. *)
Definition consume (y : sys) : option sys :=
  match q_pop (y_q y) with
  | Some (inl (e, q')) =>
      match e with
      | EFill f =>
          if f_maker f =? f_taker f then
            match aget (y_accs y) (f_maker f) with
            | None => None
            | Some a =>
                match execute_maker a (y_mk y) f with
                | None => None
                | Some (a, mk) =>
                    match execute_taker a mk f with
                    | None => None
                    | Some (a, mk) => Some (mkSys (y_bk y) mk q' (aset (y_accs y) (f_maker f) a))
                    end
                end
            end
          else
            match aget (y_accs y) (f_maker f), aget (y_accs y) (f_taker f) with
            | Some a, Some b =>
                match execute_maker a (y_mk y) f with
                | None => None
                | Some (a, mk) =>
                    match execute_taker b mk f with
                    | None => None
                    | Some (b, mk) =>
                        Some (mkSys (y_bk y) mk q' (aset (aset (y_accs y) (f_maker f) a) (f_taker f) b))
                    end
                end
            | _, _ => None
            end
      | EOut u =>
          match aget (y_accs y) (u_owner u) with
          | None => None
          | Some a =>
              match execute_out a (mk_index (y_mk y)) u with
              | None => None
              | Some a => Some (mkSys (y_bk y) (y_mk y) q' (aset (y_accs y) (u_owner u) a))
              end
          end
      end
  | _ => None
  end.

Definition set_quote (p : position) (q s : fx) : position :=
  mkPos (p_base p) q (p_bids p) (p_asks p) (p_taker_base p) (p_taker_quote p) (p_long_settled p) (p_short_settled p) s.

Definition step (y : sys) (x : op) : option sys :=
  let mkt := mk_index (y_mk y) in
  match x with
  | OpCreate pk n => (* account_create.rs *)
      match aget (y_accs y) pk with
      | Some _ => None
      | None => Some (with_acc y pk (mkAcc None (repeat slot0 n)))
      end
  | OpClose pk => (* account_close.rs without force_close: all positions inactive *)
      match aget (y_accs y) pk with
      | Some a => match a_pos a with
                  | None => Some (mkSys (y_bk y) (y_mk y) (y_q y) (adel (y_accs y) pk))
                  | Some _ => None
                  end
      | None => None
      end
  | OpResize pk n => (* account_expand.rs *)
      match aget (y_accs y) pk with
      | Some a => match resize_slots (a_oo a) n with
                  | Some L => Some (with_acc y pk (mkAcc (a_pos a) L))
                  | None => None
                  end
      | None => None
      end
  | OpOther pk i s => (* any change by another perp market to its own slots *)
      match aget (y_accs y) pk with
      | Some a => match slot_at a i with
                  | Some s0 => if (s_market s0 =? mkt) || (s_market s =? mkt) then None
                               else Some (with_acc y pk (set_slot a i s))
                  | None => None
                  end
      | None => None
      end
  | OpPlace pk o oracle now limit => (* perp_place_order.rs:79-135 *)
      match aget (y_accs y) pk with
      | Some a =>
          match new_order (y_bk y) o (y_mk y) (y_q y) oracle (ensure_position a) pk now limit with
          | Some r => Some (mkSys (r_book r) (r_market r) (r_q r) (aset (y_accs y) pk (r_acc r)))
          | None => None
          end
      | None => None
      end
  | OpCancelId pk id => (* perp_cancel_order.rs:12-45 *)
      match aget (y_accs y) pk with
      | Some a => match find_order_id a mkt id with
                  | Some i => cancel_slot y pk a i
                  | None => None
                  end
      | None => None
      end
  | OpCancelClient pk cid => (* perp_cancel_order_by_client_order_id.rs:10-40 *)
      match aget (y_accs y) pk with
      | Some a => match find_client_order a mkt cid with
                  | Some i => cancel_slot y pk a i
                  | None => None
                  end
      | None => None
      end
  | OpCancelAll pk only limit => (* perp_cancel_all_orders.rs, _by_side, perp_liq_force_cancel_orders.rs *)
      match aget (y_accs y) pk with
      | Some a =>
          match cancel_all (y_bk y) a mkt pk limit only 0 (length (a_oo a)) with
          | Some (bk', a') => Some (mkSys bk' (y_mk y) (y_q y) (aset (y_accs y) pk a'))
          | None => None
          end
      | None => None
      end
  | OpConsume => consume y
  | OpTrade pk1 pk2 base quote1 quote2 =>
      (* off-book transfer of base lots: perp_force_close_position.rs:34-56,
         perp_liq_base_or_positive_pnl.rs *)
      if pk1 =? pk2 then None else
      match aget (y_accs y) pk1, aget (y_accs y) pk2 with
      | Some a, Some b =>
          match a_pos a, a_pos b with
          | Some p, Some p' =>
              let '(p, mk) := record_trade p (y_mk y) base quote1 in
              let '(p', mk) := record_trade p' mk (- base) quote2 in
              Some (mkSys (y_bk y) mk (y_q y) (aset (aset (y_accs y) pk1 (set_pos a p)) pk2 (set_pos b p')))
          | _, _ => None
          end
      | _, _ => None
      end
  | OpQuote pk quote oneshot => (* settlements, fees and pnl liquidations set the quote position *)
      match aget (y_accs y) pk with
      | Some a => match a_pos a with
                  | Some p => Some (with_acc y pk (set_pos a (set_quote p quote oneshot)))
                  | None => None
                  end
      | None => None
      end
  | OpFunding pk =>
      match aget (y_accs y) pk with
      | Some a => match a_pos a with
                  | Some p => Some (with_acc y pk (set_pos a (settle_funding p (y_mk y))))
                  | None => None
                  end
      | None => None
      end
  | OpDeactivate pk => (* perp_deactivate_position.rs:7-50 *)
      match aget (y_accs y) pk with
      | Some a => match a_pos a with
                  | Some p =>
                      let p := settle_funding p (y_mk y) in
                      if (p_base p =? 0) && (p_quote p =? 0) && (p_bids p =? 0) && (p_asks p =? 0)
                         && (p_taker_base p =? 0) && (p_taker_quote p =? 0)
                      then Some (with_acc y pk (mkAcc None (a_oo a))) else None
                  | None => None
                  end
      | None => None
      end
  | OpMarket lf sf maker taker penalty fees aw lw =>
      (* funding, fee and weight changes: perp_update_funding.rs, perp_edit_market.rs,
         perp_settle_fees.rs, loss socialization *)
      Some (mkSys (y_bk y)
        (mkMarket mkt (mk_seq (y_mk y)) (mk_bls (y_mk y)) (mk_qls (y_mk y)) maker taker penalty fees
           (mk_open_interest (y_mk y)) lf sf aw lw) (y_q y) (y_accs y))
  | OpActivate pk => (* [ensure_perp_position] for a liquidator, perp_liq_base_or_positive_pnl.rs:86,
                        perp_liq_negative_pnl_or_bankruptcy.rs:94 *)
      match aget (y_accs y) pk with
      | Some a => Some (with_acc y pk (ensure_position a))
      | None => None
      end
  end.

(** instructions as they can be sent *)
Definition op_wf (x : op) : Prop :=
  match x with OpPlace _ o _ now _ => BookPlace.order_wf o /\ BookPlace.clock_ok now | _ => True end.

Fixpoint run_ops (y : sys) (L : list op) : option sys :=
  match L with
  | [] => Some y
  | x :: L' => match step y x with Some y' => run_ops y' L' | None => None end
  end.

(** a freshly created market: perp_create_market.rs; [buf] is the queue account's
    buffer *)
Definition fresh (cap : nat) (buf : list event) (idx bls qls : Z) (maker taker penalty aw lw : fx) : sys :=
  mkSys (empty_book cap) (mkMarket idx 0 bls qls maker taker penalty 0 0 0 0 aw lw) (mkQ 0 0 0 buf) [].

(** what a history from a fresh market can lead to *)
Definition reached (cap capq : nat) (y : sys) : Prop :=
  exists buf idx bls qls maker taker penalty aw lw L,
    length buf = capq /\ (0 < capq)%nat /\ idx <> FREE /\ Forall op_wf L /\
    run_ops (fresh cap buf idx bls qls maker taker penalty aw lw) L = Some y.
