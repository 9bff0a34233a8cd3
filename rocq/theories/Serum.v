(** Spot orders on the external order book: instructions/serum3_place_order.rs, serum3_settle_funds.rs,
    serum3_liq_force_cancel_orders.rs, serum3_close_open_orders.rs, state/bank.rs:1267-1275.
    What the external program does is an input: the open orders account and the vault balances after the call.
    Order prices are kept in lots; the f64 values the code keeps (price, inverse price) are functions of them, given
    by [pfun]: f64 multiplication and division by positive constants are monotone, so the code's min and max of these values are
    the values of the min and max in lots.  0: no value.
    Not modelled: logs, the buyback fees of a settlement (Buyback), who may call (Auth), which accounts are passed (Oracle). *)
From Coq Require Import List ZArith Lia Bool.
From Verif Require Import OrderTree Keys PerpTypes Interest Bank Health LiqState TokenLiq Fixed.
Import ListNotations.
Open Scope Z_scope.

(** mango_account_components.rs:115-166 [Serum3Orders]; bids are kept there as inverse prices: the lowest inverse is the
    highest bid *)
Record sorders := mkSO {
  so_bbwf : Z; so_qbwf : Z;                                   (* base/quote_borrows_without_fee : u64 *)
  so_bid_hi : Z; so_bid_lo : Z; so_ask_lo : Z; so_ask_hi : Z; (* highest/lowest_placed_bid_inv, lowest/highest_placed_ask *)
  so_pot_base : Z; so_pot_quote : Z }.                        (* potential_base/quote_tokens : u64 *)
(** the order prices as I80F48 and [(amount as f64 * price) as u64] *)
Record pfun := mkPF { pf_ask : Z -> fx; pf_bid_inv : Z -> fx; pf_to_base : Z -> Z -> Z; pf_to_quote : Z -> Z -> Z }.
(** the two banks of a market, an account's positions with them and its orders there *)
Record sstate := mkSS { ss_bb : bank; ss_qb : bank; ss_bp : tpos; ss_qp : tpos; ss_so : sorders }.

(** serum3_place_order.rs:512-577 [apply_vault_difference]: bank, position, borrows without fee, native change *)
Definition vault_difference (b : bank) (p : tpos) (bwf after before now : Z) : option (bank * tpos * Z * fx) :=
  let needed := of_int after - of_int before in
  let* (b', p', _) := if 0 <=? needed then deposit b p needed now else withdraw_without_fee b p (- needed) now in
  let change := native b' p' - native b p in
  let new_borrows := to_int (Z.abs (Z.min (Z.max change (native b' p')) 0)) in
  let* _ := guard (bwf + new_borrows <? 2 ^ 64) in
  let bwf := bwf + new_borrows in
  let bwf := if 0 <? needed then Z.max 0 (bwf - to_int needed) else bwf in
  Some (b', p', bwf, change).

(** serum3_settle_funds.rs:147-238, one side: bank, position, borrows without fee, the loan the fee is charged for.
    [total]: the tokens of this side in the open orders account; [price_ok]: the price for the log can be read *)
Definition charge_side (b : bank) (p : tpos) (bwf total : Z) (price_ok : bool) (now : Z) : option (bank * tpos * Z * Z) :=
  let loan := Z.max 0 (bwf - total) in
  if 0 <? loan then
    let* (b', p', _) := withdraw_loan_origination_fee b p (of_int loan) now in
    let* _ := guard price_ok in
    Some (b', p', total, loan)
  else Some (b, p, bwf, 0).
Definition charge_fees (s : sstate) (oo : openorders) (price_ok : bool) (now : Z) : option (sstate * (Z * Z)) :=
  let so := ss_so s in
  let* (bb, bp, bbwf, bl) := charge_side (ss_bb s) (ss_bp s) (so_bbwf so) (oo_base_total oo) price_ok now in
  let* (qb, qp, qbwf, ql) := charge_side (ss_qb s) (ss_qp s) (so_qbwf so) (oo_quote_total oo) price_ok now in
  Some (mkSS bb qb bp qp (mkSO bbwf qbwf (so_bid_hi so) (so_bid_lo so) (so_ask_lo so) (so_ask_hi so) (so_pot_base so) (so_pot_quote so)), (bl, ql)).

(** bank.rs:1267-1275 [update_potential_serum_tokens] *)
Definition update_potential (b : bank) (old new : Z) : option bank :=
  if old <=? new then let* _ := guard (b_serum b + (new - old) <? 2 ^ 64) in Some (set_serum b (b_serum b + (new - old)))
  else Some (set_serum b (Z.max 0 (b_serum b - (old - new)))).
(** serum3_place_order.rs:679-720: the potential tokens of an open orders account; u64 subtraction and addition may panic *)
Definition potential_base (pf : pfun) (so : sorders) (oo : openorders) : option Z :=
  let* _ := guard (oo_quote_free oo <=? oo_quote_total oo) in
  let n := oo_base_total oo + pf_to_base pf (oo_quote_total oo - oo_quote_free oo) (so_bid_lo so) in
  let* _ := guard (n <? 2 ^ 64) in Some n.
Definition potential_quote (pf : pfun) (so : sorders) (oo : openorders) : option Z :=
  let* _ := guard (oo_base_free oo <=? oo_base_total oo) in
  let n := oo_quote_total oo + pf_to_quote pf (oo_base_total oo - oo_base_free oo) (so_ask_hi so) in
  let* _ := guard (n <? 2 ^ 64) in Some n.
Definition set_pots (so : sorders) (b q : Z) : sorders :=
  mkSO (so_bbwf so) (so_qbwf so) (so_bid_hi so) (so_bid_lo so) (so_ask_lo so) (so_ask_hi so) b q.
(** :699-724 [update_bank_potential_tokens] *)
Definition update_potentials (pf : pfun) (s : sstate) (oo : openorders) : option sstate :=
  let so := ss_so s in
  let* nb := potential_base pf so oo in
  let* nq := potential_quote pf so oo in
  let* bb := update_potential (ss_bb s) (so_pot_base so) nb in
  let* qb := update_potential (ss_qb s) (so_pot_quote so) nq in
  Some (mkSS bb qb (ss_bp s) (ss_qp s) (set_pots so nb nq)).
(** :674-697 [update_bank_potential_tokens_payer_only] *)
Definition update_potentials_payer (pf : pfun) (bid : bool) (s : sstate) (oo : openorders) : option sstate :=
  let so := ss_so s in
  if bid then
    let* nq := potential_quote pf so oo in
    let* qb := update_potential (ss_qb s) (so_pot_quote so) nq in
    Some (mkSS (ss_bb s) qb (ss_bp s) (ss_qp s) (set_pots so (so_pot_base so) nq))
  else
    let* nb := potential_base pf so oo in
    let* bb := update_potential (ss_bb s) (so_pot_base so) nb in
    Some (mkSS bb (ss_qb s) (ss_bp s) (ss_qp s) (set_pots so nb (so_pot_quote so))).

(** :579-672 [apply_settle_changes]; result: state, rebates kept as fees, native changes of both positions *)
Definition settle_changes (pf : pfun) (s : sstate) (dao : bool) (oo oo' : openorders) (bv bv' qv qv' now : Z) : option (sstate * Z * (fx * fx)) :=
  let received := if dao then Z.max 0 (oo_rebates oo - oo_rebates oo') else 0 in
  let qb := set_totals (ss_qb s) (b_dep (ss_qb s)) (b_bor (ss_qb s)) (b_dust (ss_qb s)) (b_fees (ss_qb s) + of_int received) in
  let* _ := guard (received <=? qv') in
  let qv' := qv' - received in
  let* _ := guard (bv <=? bv') in
  let* _ := guard (qv <=? qv') in
  let so := ss_so s in
  let* (bb, bp, bbwf, bc) := vault_difference (ss_bb s) (ss_bp s) (so_bbwf so) bv' bv now in
  let* (qb, qp, qbwf, qc) := vault_difference qb (ss_qp s) (so_qbwf so) qv' qv now in
  let so := mkSO bbwf qbwf (so_bid_hi so) (so_bid_lo so) (so_ask_lo so) (so_ask_hi so) (so_pot_base so) (so_pot_quote so) in
  let* s := update_potentials pf (mkSS bb qb bp qp so) oo' in
  Some (s, received, (bc, qc)).

(** serum3_settle_funds.rs:21-145 *)
Definition settle_funds (pf : pfun) (s : sstate) (dao price_ok : bool) (oo oo' : openorders) (bv bv' qv qv' now : Z) : option (sstate * Z * (Z * Z)) :=
  let* (s, loans) := charge_fees s oo price_ok now in
  let* (s, received, _) := settle_changes pf s dao oo oo' bv bv' qv qv' now in
  Some (s, received, loans).

(** cache.rs:874-905 [recompute_serum3_info], of the [i]th spot market of the cache *)
Definition recompute_serum (pf : pfun) (hc : cache) (i : nat) (so : sorders) (oo oo' : openorders) : option cache :=
  let* si := nth_error (hc_serum hc) i in
  let toks := add_spot_at (hc_tokens hc) (si_base si) (of_int (oo_base_free oo') - of_int (oo_base_free oo)) in
  let toks := add_spot_at toks (si_quote si) (of_int (oo_quote_free oo') - of_int (oo_quote_free oo)) in
  let* si' := new_sinfo oo' (pf_ask pf (so_ask_lo so)) (pf_bid_inv pf (so_bid_hi so)) (si_base si) (si_quote si) (si_market si) in
  Some (mkHC toks (update_nth (hc_serum hc) i (fun _ => si')) (hc_perps hc)).
Fixpoint market_pos (O : list sinfo) (m : Z) : option nat :=
  match O with [] => None | si :: O' => if si_market si =? m then Some 0%nat else option_map S (market_pos O' m) end.

(** the market and the tokens' indexes; the scaled init weights of the changed banks *)
Record senv := mkSE { se_pf : pfun; se_market : Z; se_base : Z; se_quote : Z }.

(** serum3_liq_force_cancel_orders.rs:14-176.  [operational]: the account is not frozen; [force]: the market is in force close;
    [wb], [wq]: scaled init weights of the banks afterwards.  Result: state, mark, cache; [None] in the last place: nothing was done *)
Definition force_cancel (e : senv) (s : sstate) (hc : cache) (flag operational force : bool) (oo oo' : openorders)
  (bv bv' qv qv' now : Z) (wb wq : fx * fx) : option (sstate * bool * option (cache * Z * (Z * Z))) :=
  let* maint := health hc HMaint in
  let* liq_end := health hc HLiqEnd in
  let '(l, flag) := check_liquidatable flag maint liq_end in
  if negb (negb operational || (match l with Liquidatable => true | _ => false end) || force) then Some (s, flag, None)
  else
    let* (s, loans) := charge_fees s oo true now in
    let* (s, received, (bc, qc)) := settle_changes (se_pf e) s true oo oo' bv bv' qv qv' now in
    let* hc := adjust_token_balance hc (se_base e) bc wb in
    let* hc := adjust_token_balance hc (se_quote e) qc wq in
    let* i := market_pos (hc_serum hc) (se_market e) in
    let* hc := recompute_serum (se_pf e) hc i (ss_so s) oo oo' in
    let* liq_end := health hc HLiqEnd in
    Some (s, recover flag liq_end, Some (hc, received, loans)).

(** *** placing an order *)
(** the slots of an open orders account: free, or taken by a bid ([true]) or ask; [free_slot_bits], [is_bid_bits] *)
Definition slots := list (option bool).
Definition has_bids (S : slots) : bool := existsb (fun o => match o with Some true => true | _ => false end) S.
Definition has_asks (S : slots) : bool := existsb (fun o => match o with Some false => true | _ => false end) S.
Definition free_bits (S : slots) : list bool := map (fun o => match o with None => true | Some _ => false end) S.
Definition same_bits (A B : list bool) : bool := if list_eq_dec bool_dec A B then true else false.
(** serum3_place_order.rs:223-273 *)
Definition min0 (a b : Z) : Z := if a =? 0 then b else Z.min a b.
Definition max0 (a b : Z) : Z := if a =? 0 then b else Z.max a b.
Definition track (so : sorders) (bid : bool) (lots : Z) (before after : slots) : sorders :=
  let hi := if has_bids before then so_bid_hi so else 0 in
  let lo := if has_bids before then so_bid_lo so else 0 in
  let al := if has_asks before then so_ask_lo so else 0 in
  let ah := if has_asks before then so_ask_hi so else 0 in
  let '(hi, lo, al, ah) :=
    if same_bits (free_bits before) (free_bits after) then (hi, lo, al, ah)
    else if bid then (max0 hi lots, min0 lo lots, al, ah) else (hi, lo, min0 al lots, max0 ah lots) in
  mkSO (so_bbwf so) (so_qbwf so) hi lo al ah (so_pot_base so) (so_pot_quote so).

(** cache.rs:1193-1221 [total_serum3_potential] *)
Fixpoint sum_potential (hc : cache) (O : list sinfo) (j : nat) : option fx :=
  match O with
  | [] => Some 0
  | si :: O' =>
      let* r := sum_potential hc O' j in
      let* q := nth_error (hc_tokens hc) (si_quote si) in
      let* b := nth_error (hc_tokens hc) (si_base si) in
      if Nat.eqb (si_quote si) j then let* x := reserved_as_quote si HMaint q b in Some (x + r)
      else if Nat.eqb (si_base si) j then let* x := reserved_as_base si HMaint q b in Some (x + r)
      else Some r
  end.

(** what an order placement is called with and what the external program does:
    [pl_amount]: the requested base lots times lot size, or the quote limit; [pl_band]: the price is inside the band of
    :366-408; [pl_v2]: the result of :127-147; [pl_markets]: the account's active markets with their base and quote token *)
Record placement := mkPL {
  pl_bid : bool; pl_lots : Z; pl_amount : Z; pl_market_reduce : bool; pl_region : bool; pl_v2 : bool;
  pl_oo : openorders; pl_oo' : openorders; pl_slots : slots; pl_slots' : slots; pl_vault : Z; pl_vault' : Z;
  pl_oracle : fx; pl_band : bool; pl_now : Z; pl_wr : fx * fx; pl_wp : fx * fx; pl_markets : list (Z * Z * Z) }.
Definition payer_bank (bid : bool) (s : sstate) : bank := if bid then ss_qb s else ss_bb s.
Definition receiver_bank (bid : bool) (s : sstate) : bank := if bid then ss_bb s else ss_qb s.
Definition payer_pos (bid : bool) (s : sstate) : tpos := if bid then ss_qp s else ss_bp s.
Definition payer_bwf (bid : bool) (s : sstate) : Z := if bid then so_qbwf (ss_so s) else so_bbwf (ss_so s).
Definition set_payer (bid : bool) (s : sstate) (b : bank) (p : tpos) (bwf : Z) : sstate :=
  let so := ss_so s in
  let so' := mkSO (if bid then so_bbwf so else bwf) (if bid then bwf else so_qbwf so) (so_bid_hi so) (so_bid_lo so) (so_ask_lo so) (so_ask_hi so) (so_pot_base so) (so_pot_quote so) in
  if bid then mkSS (ss_bb s) b (ss_bp s) p so' else mkSS b (ss_qb s) p (ss_qp s) so'.
Definition in_cache (hc : cache) (m : Z) : bool := existsb (fun si => si_market si =? m) (hc_serum hc).

(** serum3_place_order.rs:20-460.  Result: state, mark, the cache the final health is computed from *)
Definition place_order (e : senv) (s : sstate) (hc : cache) (flag : bool) (pl : placement) : option (sstate * bool * cache) :=
  let bid := pl_bid pl in
  let payer := if bid then se_quote e else se_base e in
  let receiver := if bid then se_base e else se_quote e in
  let* _ := guard (0 <? pl_lots pl) in
  let* _ := guard (negb (pl_market_reduce pl)) in
  let* _ := token_pos (hc_tokens hc) payer in
  let* rj := token_pos (hc_tokens hc) receiver in
  let* (flag, pre) :=
    if pl_region pl then Some (flag, 0)
    else
      let* h := health hc HInit in
      let* h_end := health hc HLiqEnd in
      let* flag := pre_check flag h h_end in Some (flag, h) in
  let reduce := deposits_reduce_only (receiver_bank bid s) in
  let free := if bid then oo_quote_free (pl_oo pl) else oo_base_free (pl_oo pl) in
  let* _ := guard (Z.max 0 (pl_amount pl - free) <=? pl_vault pl) in
  (* after the call *)
  let s := mkSS (ss_bb s) (ss_qb s) (ss_bp s) (ss_qp s) (track (ss_so s) bid (pl_lots pl) (pl_slots pl) (pl_slots' pl)) in
  let* _ := guard (pl_vault' pl <=? pl_vault pl) in
  let* s := if pl_v2 pl then update_potentials (se_pf e) s (pl_oo' pl) else update_potentials_payer (se_pf e) bid s (pl_oo' pl) in
  let before := native (payer_bank bid s) (payer_pos bid s) in
  let* (b, p, bwf, change) := vault_difference (payer_bank bid s) (payer_pos bid s) (payer_bwf bid s) (pl_vault' pl) (pl_vault pl) (pl_now pl) in
  let s := set_payer bid s b p bwf in
  let* _ := guard (check_deposit_and_oo_limit (receiver_bank bid s)) in
  let* _ :=
    if before <? of_int (pl_vault pl - pl_vault' pl) then
      guard (negb (borrows_reduce_only b) && enforce_max_utilization b (b_max_util b) && check_net_borrows b (pl_oracle pl) && check_deposit_and_oo_limit b)
    else guard (enforce_max_utilization b fone) in
  let* _ := guard (same_bits (free_bits (pl_slots pl)) (free_bits (pl_slots' pl)) || pl_band pl) in
  let* hc := adjust_token_balance hc receiver 0 (pl_wr pl) in
  let* hc := adjust_token_balance hc payer change (pl_wp pl) in
  let* i := market_pos (hc_serum hc) (se_market e) in
  let* hc := recompute_serum (se_pf e) hc i (ss_so s) (pl_oo pl) (pl_oo' pl) in
  let* _ := guard (forallb (fun m => let '(mi, mb, mq) := m in negb ((mb =? receiver) || (mq =? receiver)) || in_cache hc mi) (pl_markets pl)) in
  let* _ :=
    if reduce then
      let* t := nth_error (hc_tokens hc) rj in
      let* pot := sum_potential hc (hc_serum hc) rj in
      guard (ti_spot t + pot <? fone)
    else Some tt in
  let* _ := if pl_region pl then Some tt else let* post := health hc HInit in guard (post_check pre post) in
  Some (s, flag, hc).
