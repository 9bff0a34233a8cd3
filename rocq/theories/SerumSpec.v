(** Specification vocabulary for spot orders. *)
From Coq Require Import List ZArith Bool.
From Verif Require Import PerpTypes Interest Bank BankSpec Health TokenLiq Serum Fixed.
Import ListNotations.
Open Scope Z_scope.

Definition debt (b : bank) (p : tpos) : fx := Z.max 0 (- native b p).
(** a bank as the program keeps it, and a position kept open by the market *)
Definition side_ok (b : bank) (p : tpos) : Prop := 0 < b_di b /\ 0 < b_bi b /\ 0 <= b_lof b /\ 0 < t_use p.
Definition state_ok (s : sstate) : Prop := side_ok (ss_bb s) (ss_bp s) /\ side_ok (ss_qb s) (ss_qp s).
(** the worth of a position times 2^96 *)
Definition claim (b : bank) (p : tpos) : Z := BankSpec.worth (b_di b) (b_bi b) (t_ix p).

(** a position changed by [net], the bank's fees by [fee]; the bank's totals follow the position, its indexes stay;
    [n]: the number of roundings *)
Record side_moved (n : Z) (b b' : bank) (p p' : tpos) (net fee : fx) : Prop := {
  sm_dep : b_dep b' - b_dep b = Z.max (t_ix p') 0 - Z.max (t_ix p) 0;
  sm_bor : b_bor b' - b_bor b = Z.max (- t_ix p') 0 - Z.max (- t_ix p) 0;
  sm_use : t_use p' = t_use p;
  sm_index : b_di b' = b_di b /\ b_bi b' = b_bi b;
  sm_fees : b_fees b' = b_fees b + fee;
  sm_dust : b_dust b' = b_dust b;
  sm_claim : net * fone - n * fone <= claim b' p' - claim b p <= net * fone + n * Z.max (b_di b) (b_bi b) }.

(** one spot market account and its open orders account: what one call did to one side (base or quote):
    tokens that left the open orders account without going to the vault, tokens sent to it, debt made for them, tokens settled to the
    vault for the account, loan that a fee was charged for *)
Record flow := mkFlow { fl_lost : Z; fl_sent : Z; fl_debt : fx; fl_settled : Z; fl_loan : Z }.
Definition no_flow (total total' : Z) : flow := mkFlow (Z.max 0 (total - total')) 0 0 0 0.
Definition place_flow (total total' vault vault' : Z) (b b' : bank) (p p' : tpos) : flow :=
  mkFlow (Z.max 0 (total + (vault - vault') - total')) (vault - vault') (Z.max 0 (debt b' p' - debt b p)) 0 0.
Definition settle_flow (total total' vault vault' loan : Z) : flow :=
  mkFlow (Z.max 0 (total - (vault' - vault) - total')) 0 0 (vault' - vault) loan.
Definition totals (f : flow -> Z) (L : list flow) : Z := fold_right (fun x t => f x + t) 0 L.

(** the fields of an open orders account are unsigned and no more is free than there is *)
Definition oo_ok (oo : openorders) : Prop := 0 <= oo_base_free oo <= oo_base_total oo /\ 0 <= oo_quote_free oo <= oo_quote_total oo /\ 0 <= oo_rebates oo.

(** any history of one account in one market: orders placed, funds settled, orders cancelled by liquidators, and anything the external
    program does (fills, cancels); between two instructions banks and positions may change in any way.
    From the account's record and the open orders account to those at the end, with the flows of base and quote tokens. *)
Inductive spot_run : sorders -> openorders -> list (flow * flow) -> sorders -> openorders -> Prop :=
| sr_done so oo : spot_run so oo [] so oo
| sr_dex so oo oo1 L so' oo' : oo_ok oo1 -> spot_run so oo1 L so' oo' ->
    spot_run so oo ((no_flow (oo_base_total oo) (oo_base_total oo1), no_flow (oo_quote_total oo) (oo_quote_total oo1)) :: L) so' oo'
| sr_place e s hc flag pl s1 f1 hc1 L so' oo' : state_ok s -> oo_ok (pl_oo' pl) -> place_order e s hc flag pl = Some (s1, f1, hc1) ->
    spot_run (ss_so s1) (pl_oo' pl) L so' oo' ->
    spot_run (ss_so s) (pl_oo pl)
      ((if pl_bid pl then no_flow (oo_base_total (pl_oo pl)) (oo_base_total (pl_oo' pl))
        else place_flow (oo_base_total (pl_oo pl)) (oo_base_total (pl_oo' pl)) (pl_vault pl) (pl_vault' pl) (ss_bb s) (ss_bb s1) (ss_bp s) (ss_bp s1),
        if pl_bid pl then place_flow (oo_quote_total (pl_oo pl)) (oo_quote_total (pl_oo' pl)) (pl_vault pl) (pl_vault' pl) (ss_qb s) (ss_qb s1) (ss_qp s) (ss_qp s1)
        else no_flow (oo_quote_total (pl_oo pl)) (oo_quote_total (pl_oo' pl))) :: L) so' oo'
| sr_settle pf s dao ok oo oo1 bv bv' qv qv' now s1 rec loans L so' oo' : state_ok s -> oo_ok oo1 ->
    settle_funds pf s dao ok oo oo1 bv bv' qv qv' now = Some (s1, rec, loans) ->
    spot_run (ss_so s1) oo1 L so' oo' ->
    spot_run (ss_so s) oo ((settle_flow (oo_base_total oo) (oo_base_total oo1) bv bv' (fst loans),
      settle_flow (oo_quote_total oo) (oo_quote_total oo1) qv (qv' - rec) (snd loans)) :: L) so' oo'
| sr_cancel e s hc flag op force oo oo1 bv bv' qv qv' now wb wq s1 f1 hc1 rec loans L so' oo' : state_ok s -> oo_ok oo1 ->
    force_cancel e s hc flag op force oo oo1 bv bv' qv qv' now wb wq = Some (s1, f1, Some (hc1, rec, loans)) ->
    spot_run (ss_so s1) oo1 L so' oo' ->
    spot_run (ss_so s) oo ((settle_flow (oo_base_total oo) (oo_base_total oo1) bv bv' (fst loans),
      settle_flow (oo_quote_total oo) (oo_quote_total oo1) qv (qv' - rec) (snd loans)) :: L) so' oo'.

(** how the potential tokens of a bank follow the ones of an open orders account *)
Definition pot_moved (b b' : bank) (old new : Z) : Prop := b_serum b' = (if old <=? new then b_serum b + (new - old) else Z.max 0 (b_serum b - (old - new))).

(** the account's positions and spot orders as the health computation reads them, after a change:
    the positions of the two tokens of the market hold [xb], [xq] tokens, their scaled init weights are [wb], [wq];
    the open orders account of the market is [oo'], the account's record of its order prices is the one of [so'] *)
Definition position_now (idx : Z) (x : fx) (w : fx * fx) (nonneg : bool) (p : pos_in) : pos_in :=
  if ti_index (pin_info p) =? idx then mkPosIn (pin_available p) (pin_oracle_ok p) nonneg (set_spot (pin_info p) x (fst w) (snd w)) else p.
Definition orders_now (e : senv) (so' : sorders) (oo' : openorders) (o : serum_in) : serum_in :=
  if sin_market o =? se_market e
  then mkSerumIn (sin_base o) (sin_quote o) oo' (pf_ask (se_pf e) (so_ask_lo so')) (pf_bid_inv (se_pf e) (so_bid_hi so')) (sin_market o) else o.
(** the positions and orders of an account as they are: [xb], [xq] tokens in the positions, [oo] the open orders account *)
Definition shows (e : senv) (xb xq : fx) (oo : openorders) (L : list pos_in) (O : list serum_in) : Prop :=
  NoDup (map (fun p => ti_index (pin_info p)) L) /\ NoDup (map sin_market O) /\
  (forall p, In p L -> ti_index (pin_info p) = se_base e -> ti_spot (pin_info p) = xb) /\
  (forall p, In p L -> ti_index (pin_info p) = se_quote e -> ti_spot (pin_info p) = xq) /\
  (forall o, In o O -> sin_market o = se_market e -> sin_oo o = oo /\ sin_base o = se_base e /\ sin_quote o = se_quote e).
Definition positions_now (e : senv) (xb xq : fx) (wb wq : fx * fx) (nb nq : bool) (L : list pos_in) : list pos_in :=
  map (fun p => position_now (se_base e) xb wb nb (position_now (se_quote e) xq wq nq p)) L.

(** a bank's limits *)
Definition within_deposit_limit (b : bank) : Prop := b_dep_limit b = 0 \/ b_di b * b_dep b / fone + b_serum b * fone <= b_dep_limit b * fone.
Definition within_net_borrow_limit (b : bank) (oracle : fx) : Prop :=
  b_win_net b < 0 \/ b_win_limit b < 0 \/ Z.max oracle (b_stable b) * b_win_net b <= b_win_limit b * fone.
Definition within_utilization (b : bank) (max : fx) : Prop := b_bi b * b_bor b / fone <= max * (b_di b * b_dep b / fone) / fone.

(** one side of a market *)
Definition bwf_of (base : bool) (so : sorders) : Z := if base then so_bbwf so else so_qbwf so.
Definition total_of (base : bool) (oo : openorders) : Z := if base then oo_base_total oo else oo_quote_total oo.
Definition flow_of (base : bool) (f : flow * flow) : flow := if base then fst f else snd f.
Definition sums (base : bool) (f : flow -> Z) (L : list (flow * flow)) : Z := totals f (map (flow_of base) L).

(** *** orders: the slots of an open orders account with the orders' prices in lots *)
Definition book := list (option (bool * Z)).
Definition view (G : book) : slots := map (option_map fst) G.
Definition freed (G G' : book) : Prop := Forall2 (fun a b => b = a \/ b = None) G G'.
(** what the external program does when an order is placed: orders may leave, and the new order may take a free slot *)
Definition rested (bid : bool) (lots : Z) (G G' : book) : Prop :=
  Forall2 (fun a b => b = a \/ b = None \/ (a = None /\ b = Some (bid, lots))) G G'.
Definition tracked (so : sorders) (G : book) : Prop :=
  (forall p, In (Some (true, p)) G -> 0 < so_bid_lo so <= p /\ p <= so_bid_hi so) /\
  (forall p, In (Some (false, p)) G -> 0 < so_ask_lo so <= p /\ p <= so_ask_hi so).
Inductive order_run : sorders -> book -> sorders -> book -> Prop :=
| or_done so G : order_run so G so G
| or_dex so G G1 so' G' : freed G G1 -> order_run so G1 so' G' -> order_run so G so' G'
| or_place e s hc flag pl s1 f1 hc1 G G1 so' G' : state_ok s -> place_order e s hc flag pl = Some (s1, f1, hc1) ->
    pl_slots pl = view G -> pl_slots' pl = view G1 -> rested (pl_bid pl) (pl_lots pl) G G1 ->
    order_run (ss_so s1) G1 so' G' -> order_run (ss_so s) G so' G'
| or_settle pf s dao ok oo oo1 bv bv' qv qv' now s1 rec loans G so' G' : state_ok s ->
    settle_funds pf s dao ok oo oo1 bv bv' qv qv' now = Some (s1, rec, loans) ->
    order_run (ss_so s1) G so' G' -> order_run (ss_so s) G so' G'
| or_cancel e s hc flag op force oo oo1 bv bv' qv qv' now wb wq s1 f1 r G G1 so' G' : state_ok s ->
    force_cancel e s hc flag op force oo oo1 bv bv' qv qv' now wb wq = Some (s1, f1, r) -> freed G G1 ->
    order_run (ss_so s1) G1 so' G' -> order_run (ss_so s) G so' G'.

(** *** the potential tokens of a market's two banks, and all accounts' records and open orders accounts there; one bank for each token *)
Definition empty_oo (oo : openorders) : Prop := oo_base_total oo = 0 /\ oo_quote_total oo = 0.
Definition new_orders : sorders := mkSO 0 0 0 0 0 0 0 0.
Definition pot_sum (f : sorders -> Z) (A : list (sorders * openorders)) : Z := fold_right (fun a t => f (fst a) + t) 0 A.
Inductive pot_step : (Z * Z) * list (sorders * openorders) -> (Z * Z) * list (sorders * openorders) -> Prop :=
| ps_open v A oo : empty_oo oo -> oo_ok oo -> pot_step (v, A) (v, A ++ [(new_orders, oo)])
| ps_close v A B so oo : empty_oo oo -> pot_step (v, A ++ (so, oo) :: B) (v, A ++ B)
| ps_dex v A B so oo oo' : oo_ok oo' -> (empty_oo oo' -> empty_oo oo) -> pot_step (v, A ++ (so, oo) :: B) (v, A ++ (so, oo') :: B)
| ps_place e s hc flag pl s' f' hc' A B : state_ok s -> place_order e s hc flag pl = Some (s', f', hc') -> oo_ok (pl_oo' pl) -> (empty_oo (pl_oo' pl) -> empty_oo (pl_oo pl)) ->
    (forall q r, 0 <= q -> 0 <= pf_to_base (se_pf e) q r /\ 0 <= pf_to_quote (se_pf e) q r) -> (forall r, pf_to_base (se_pf e) 0 r = 0 /\ pf_to_quote (se_pf e) 0 r = 0) ->
    pot_step ((b_serum (ss_bb s), b_serum (ss_qb s)), A ++ (ss_so s, pl_oo pl) :: B) ((b_serum (ss_bb s'), b_serum (ss_qb s')), A ++ (ss_so s', pl_oo' pl) :: B)
| ps_settle pf s dao ok oo oo' bv bv' qv qv' now s' rec loans A B : state_ok s -> settle_funds pf s dao ok oo oo' bv bv' qv qv' now = Some (s', rec, loans) -> oo_ok oo' ->
    (forall q r, 0 <= q -> 0 <= pf_to_base pf q r /\ 0 <= pf_to_quote pf q r) -> (forall r, pf_to_base pf 0 r = 0 /\ pf_to_quote pf 0 r = 0) ->
    pot_step ((b_serum (ss_bb s), b_serum (ss_qb s)), A ++ (ss_so s, oo) :: B) ((b_serum (ss_bb s'), b_serum (ss_qb s')), A ++ (ss_so s', oo') :: B)
| ps_cancel e s hc flag op force oo oo' bv bv' qv qv' now wb wq s' f' r A B : state_ok s ->
    force_cancel e s hc flag op force oo oo' bv bv' qv qv' now wb wq = Some (s', f', Some r) -> oo_ok oo' ->
    (forall q r, 0 <= q -> 0 <= pf_to_base (se_pf e) q r /\ 0 <= pf_to_quote (se_pf e) q r) -> (forall r, pf_to_base (se_pf e) 0 r = 0 /\ pf_to_quote (se_pf e) 0 r = 0) ->
    pot_step ((b_serum (ss_bb s), b_serum (ss_qb s)), A ++ (ss_so s, oo) :: B) ((b_serum (ss_bb s'), b_serum (ss_qb s')), A ++ (ss_so s', oo') :: B).
Inductive pot_run : (Z * Z) * list (sorders * openorders) -> (Z * Z) * list (sorders * openorders) -> Prop :=
| pr_done x : pot_run x x
| pr_step x y z : pot_step x y -> pot_run y z -> pot_run x z.
