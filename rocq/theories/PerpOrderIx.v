(** The instructions perp_place_order (and its pegged variant) and perp_liq_force_cancel_orders as a
    whole (instructions/perp_place_order.rs, perp_liq_force_cancel_orders.rs): funding update, health
    before, order matching ([new_order] of Book), health after.
    Left out: log messages, the stable price update and the expiry of buyback fees (C34). *)
From Coq Require Import List ZArith Lia Bool.
From Verif Require Import OrderTree OrderTreeSpec Keys BookSide EventQueue PerpTypes Book PerpSystem PerpMoney Interest Bank Health LiqState TokenLiq PerpLiqBase PropPerp Fixed.
Import ListNotations.
Open Scope Z_scope.

(** how health sees the positions of the market: settle token, weights, prices *)
Record pview := mkPV { pv_settle : Z; pv_par : bpar; pv_prices : prices }.
(** health/cache.rs:456-486 [PerpInfo::new] *)
Definition viewed (v : pview) (mk : market) (p : position) : pinfo :=
  new_pinfo p mk (pv_settle v) (bp_init_aw (pv_par v)) (bp_init_lw (pv_par v)) (bp_maint_ov (pv_par v)) (bp_init_ov (pv_par v)) (pv_prices v).

(** the account: address, position and order slots, the being-liquidated mark, whether it is in a
    health region; all its token positions (with the settle token of the market) and open orders
    accounts, and its perp positions in other markets, stored before and after the one of this market *)
Record pacct := mkPA {
  pa_pk : Z; pa_acc : account; pa_flag : bool; pa_region : bool;
  pa_L : list Health.pos_in; pa_O : list serum_in; pa_P1 : list pinfo; pa_P2 : list pinfo }.
(** health/cache.rs:1378-1400: the perp infos of the account *)
Definition perps_of (v : pview) (mk : market) (a : pacct) (pos : option position) : list pinfo :=
  pa_P1 a ++ match pos with Some p => [viewed v mk p] | None => [] end ++ pa_P2 a.

(** ** perp_place_order.rs:12-140 *)
(** what the instruction reads: view, funding settings, reduce-only mode of the market, oracle price, time;
    [signed]: the signer is owner or delegate (:43-46) *)
Record penv := mkPE { pe_view : pview; pe_fc : fcfg; pe_ro : bool; pe_oracle : fx; pe_now : Z; pe_signed : bool }.
(** book, market, queue, time of the last funding update, account, mark, order id, and the health
    cache of the last check *)
Record pout := mkPO {
  po_book : orderbook; po_market : market; po_q : evq; po_last : Z; po_acc : account; po_flag : bool; po_id : option Z;
  po_cache : option cache }.
(** :17-18 amounts; :26-40 funding; :64 position; :69-89 health before; :104-119 reduce-only;
    :121-130 matching; :135-139 health after *)
Definition perp_place_order (e : penv) (bk : orderbook) (mk : market) (q : evq) (last : Z) (a : pacct)
  (o : order) (ro : bool) (limit : nat) : option pout :=
  let* _ := guard ((0 <=? o_max_base o) && (0 <=? o_max_quote o)) in
  let* (mk, last) := update_funding bk mk (pe_fc e) last (pe_oracle e) (pe_now e) in
  let* _ := guard (pe_signed e) in
  let acc := ensure_position (pa_acc a) in
  let* p := a_pos acc in
  let* (f, pre) :=
    if pa_region a then Some (pa_flag a, None)
    else
      let* hc := build_cache true (pa_L a) (pa_O a) (perps_of (pe_view e) mk a (Some p)) in
      let* _ := token_pos (hc_tokens hc) (pv_settle (pe_view e)) in
      let* h := health hc HInit in
      let* h2 := health hc HLiqEnd in
      let* f := pre_check (pa_flag a) h h2 in
      Some (f, Some (hc, h)) in
  let* o := reduced_order ro (pe_ro e) p o in
  let* r := new_order bk o mk q (pe_oracle e) acc (pa_pk a) (pe_now e) limit in
  match pre with
  | None => Some (mkPO (r_book r) (r_market r) (r_q r) last (r_acc r) f (r_id r) None)
  | Some (hc, h) =>
      let* p := a_pos (r_acc r) in
      let* hc := recompute_perp hc p (r_market r) (pv_settle (pe_view e)) (pv_par (pe_view e)) in
      let* post := health hc HInit in
      let* _ := guard (post_check h post) in
      Some (mkPO (r_book r) (r_market r) (r_q r) last (r_acc r) f (r_id r) (Some hc))
  end.

(** ** perp_liq_force_cancel_orders.rs:9-70 *)
(** [frozen]: the account is not operational, [force]: the market is in force-close mode (:28-34).
    Cancelling: :39-56, recovery: :62-66.  Result: book, account, mark, and whether orders could be
    cancelled *)
Definition force_cancel_ix (v : pview) (bk : orderbook) (mk : market) (a : pacct) (frozen force : bool) (limit : nat)
  : option (orderbook * account * bool * bool) :=
  let* hc := build_cache false (pa_L a) (pa_O a) (perps_of v mk a (a_pos (pa_acc a))) in
  let* hm := health hc HMaint in
  let* he := health hc HLiqEnd in
  let (l, f) := check_liquidatable (pa_flag a) hm he in
  if frozen || match l with Liquidatable => true | _ => false end || force then
    let* (bk, acc) := cancel_all bk (pa_acc a) (mk_index mk) (pa_pk a) limit None 0 (length (a_oo (pa_acc a))) in
    let* p := a_pos acc in
    let* hc := recompute_perp hc p mk (pv_settle v) (pv_par v) in
    let* h := health hc HLiqEnd in
    Some (bk, acc, recover f h, true)
  else Some (bk, pa_acc a, f, false).
