(** C74-C78: spot orders. *)
From Coq Require Import List ZArith Lia Bool.
From Verif Require Import OrderTree Keys PerpTypes Interest InterestFacts Bank BankFacts BankInv BankSpec BankSolvency BankResults Health LiqState TokenLiq Serum SerumSpec SerumFacts SerumCache SerumHist
  PropInterest PropBank PropTokenLiq Fixed.
Import ListNotations.
Open Scope Z_scope.

(** ** C74: the money of spot orders *)
(** Placing an order: the position of the token paid changes by exactly what left the vault, no fee is taken, the bank's totals follow;
    the other position does not change, its bank only in the potential tokens. *)
Theorem C74_place : forall e s hc flag pl s' flag' hc', state_ok s -> place_order e s hc flag pl = Some (s', flag', hc') ->
  pl_vault' pl <= pl_vault pl /\
  (if pl_bid pl then
     side_moved 1 (ss_qb s) (ss_qb s') (ss_qp s) (ss_qp s') (of_int (pl_vault' pl - pl_vault pl)) 0 /\
     ss_bp s' = ss_bp s /\ ss_bb s' = set_serum (ss_bb s) (b_serum (ss_bb s'))
   else
     side_moved 1 (ss_bb s) (ss_bb s') (ss_bp s) (ss_bp s') (of_int (pl_vault' pl - pl_vault pl)) 0 /\
     ss_qp s' = ss_qp s /\ ss_qb s' = set_serum (ss_qb s) (b_serum (ss_qb s'))).
Proof.
  intros e s hc flag pl s' flag' hc' OK H. apply place_spec in H as [P _]; [|exact OK]. split; [apply (pd_sent _ _ _ _ P)|].
  pose proof (pd_payer _ _ _ _ P) as A. pose proof (pd_receiver _ _ _ _ P) as B. pose proof (pd_rpos _ _ _ _ P) as C.
  unfold payer_bank, payer_pos, receiver_bank in *. destruct (pl_bid pl); cbn [negb] in *; auto.
Qed.
Print Assumptions C74_place.

(** the fee for a loan *)
Definition fee_for (b : bank) (loan : Z) : fx := b_lof b * (loan * fone) / fone.
(** Settling (by the owner or by a liquidator who cancels the orders): each position gets what arrived in the vault less the loan
    origination fee, which goes to the bank's fees; a fee is due for the borrowed tokens that are no longer in the open orders account.
    Referrer rebates are kept as fees, or, when settling to the account, paid to it. *)
Definition settled_money (s s' : sstate) (dao : bool) (oo oo' : openorders) (bv bv' qv qv' rec : Z) (loans : Z * Z) : Prop :=
  fst loans = Z.max 0 (so_bbwf (ss_so s) - oo_base_total oo) /\ snd loans = Z.max 0 (so_qbwf (ss_so s) - oo_quote_total oo) /\
  rec = (if dao then Z.max 0 (oo_rebates oo - oo_rebates oo') else 0) /\ bv <= bv' /\ qv <= qv' - rec /\
  (let fee := fee_for (ss_bb s) (fst loans) in side_moved 2 (ss_bb s) (ss_bb s') (ss_bp s) (ss_bp s') (of_int (bv' - bv) - fee) fee) /\
  (let fee := fee_for (ss_qb s) (snd loans) in side_moved 2 (ss_qb s) (ss_qb s') (ss_qp s) (ss_qp s') (of_int (qv' - qv - rec) - fee) (fee + of_int rec)).
Lemma settled_is_money pf s s' dao oo oo' bv bv' qv qv' rec loans : settled pf s s' dao oo oo' bv bv' qv qv' rec loans -> settled_money s s' dao oo oo' bv bv' qv qv' rec loans.
Proof.
  intros [A B C _ _ _ _ _]. destruct B as [B1 B2 _ B4]. destruct C as [C1 C2 _ C4]. unfold settled_money.
  split; [exact B1|]. split; [exact C1|]. split; [exact A|]. split; [lia|]. split; [lia|]. split.
  - unfold lof_fee, fmul in B4. change (of_int 0) with 0 in B4. rewrite Z.add_0_r in B4. exact B4.
  - unfold lof_fee, fmul in C4. replace (qv' - rec - qv) with (qv' - qv - rec) in C4 by ring. exact C4.
Qed.
Theorem C74_settle : forall pf s dao ok oo oo' bv bv' qv qv' now s' rec loans, state_ok s ->
  settle_funds pf s dao ok oo oo' bv bv' qv qv' now = Some (s', rec, loans) -> settled_money s s' dao oo oo' bv bv' qv qv' rec loans.
Proof. intros pf s dao ok oo oo' bv bv' qv qv' now s' rec loans OK H. apply settle_funds_spec in H; [|exact OK]. exact (settled_is_money _ _ _ _ _ _ _ _ _ _ _ _ H). Qed.
Print Assumptions C74_settle.
Theorem C74_cancel : forall e s hc flag op force oo oo' bv bv' qv qv' now wb wq s' flag' hc' rec loans, state_ok s ->
  force_cancel e s hc flag op force oo oo' bv bv' qv qv' now wb wq = Some (s', flag', Some (hc', rec, loans)) -> settled_money s s' true oo oo' bv bv' qv qv' rec loans.
Proof.
  intros e s hc flag op force oo oo' bv bv' qv qv' now wb wq s' flag' hc' rec loans OK H.
  apply force_cancel_inv in H as (m & l & _ & _ & _ & x1 & bc & qc & y1 & y2 & i & h' & C & S & _).
  apply (settled_spec _ _ _ _ _ _ _ _ _ _ _ _ _ _ _ _ OK C) in S as (S & _). exact (settled_is_money _ _ _ _ _ _ _ _ _ _ _ _ S).
Qed.
Print Assumptions C74_cancel.

(** ** C75: loan origination fees over any history of an account in a market, for base and quote tokens *)
(** Fees are charged for no more tokens than left the open orders account by trades; an account whose record starts at 0 *)
Theorem C75_only_for_used : forall so oo L so' oo' base, spot_run so oo L so' oo' -> so_bbwf so = 0 -> so_qbwf so = 0 -> oo_ok oo ->
  sums base fl_loan L <= sums base fl_lost L.
Proof.
  intros so oo L so' oo' base R W1 W2 O. apply side_of_run with (base := base) in R; [|lia|lia|exact O]. apply run_used in R; unfold sums.
  - assert (bwf_of base so = 0) by (unfold bwf_of; destruct base; assumption). assert (0 <= total_of base oo) by (destruct O as ((? & ?) & (? & ?) & _); unfold total_of; destruct base; lia). lia.
  - unfold bwf_of; destruct base; lia.
  - destruct O as ((? & ?) & (? & ?) & _); unfold total_of; destruct base; lia.
Qed.
(** In particular orders that are only placed, cancelled and settled cost no fee, whatever was borrowed for them. *)
Theorem C75_cancelling_is_free : forall so oo L so' oo' base, spot_run so oo L so' oo' -> so_bbwf so = 0 -> so_qbwf so = 0 -> oo_ok oo ->
  Forall (fun f => fl_lost (flow_of base f) = 0) L -> Forall (fun f => fl_loan (flow_of base f) = 0) L.
Proof.
  intros so oo L so' oo' base R W1 W2 O F. pose proof (C75_only_for_used _ _ _ _ _ base R W1 W2 O) as S.
  apply side_of_run with (base := base) in R; [|lia|lia|exact O]. apply run_flows in R. unfold sums in S. clear - F R S.
  assert (Z0 : totals fl_lost (map (flow_of base) L) = 0).
  { clear - F. induction F as [|f L A F IH]; [reflexivity|]. cbn [map totals fold_right]. unfold totals in IH. rewrite A, IH. reflexivity. }
  rewrite Z0 in S. clear Z0 F. assert (N : totals fl_loan (map (flow_of base) L) <= 0 -> Forall (fun f => fl_loan (flow_of base f) = 0) L /\ 0 <= totals fl_loan (map (flow_of base) L)).
  { clear S. induction L as [|f L IH]; intros H; [split; [constructor|cbn; lia]|]. cbn [map] in R. inversion R as [|? ? (A & _) R']; subst.
    assert (NN : 0 <= totals fl_loan (map (flow_of base) L)).
    { clear - R'. induction L as [|g L IH]; [cbn; lia|]. cbn [map] in R'. inversion R' as [|? ? (A & _) R'']; subst. cbn [map totals fold_right]. specialize (IH R''). unfold totals in IH. lia. }
    cbn [map totals fold_right] in H |- *. unfold totals in NN, IH. destruct (IH R' ltac:(lia)) as [G _]. split; [constructor; [lia|exact G]|lia]. }
  apply N, S.
Qed.
(** Fees are charged for no more than the debt made when placing. *)
Theorem C75_at_most_debt : forall so oo L so' oo' base, spot_run so oo L so' oo' -> so_bbwf so = 0 -> so_qbwf so = 0 -> oo_ok oo ->
  of_int (sums base fl_loan L + bwf_of base so') <= sums base fl_debt L.
Proof.
  intros so oo L so' oo' base R W1 W2 O. apply side_of_run with (base := base) in R; [|lia|lia|exact O].
  assert (F : Forall (fun f => 0 <= fl_debt f) (map (flow_of base) L)) by (apply run_flows in R; eapply Forall_impl; [|exact R]; cbn beta; intros a H; apply H).
  apply floor_total in F. apply run_debt in R as [R _]; unfold sums, of_int.
  - assert (bwf_of base so = 0) by (unfold bwf_of; destruct base; assumption). pose proof fone_pos. nia.
  - unfold bwf_of; destruct base; lia.
  - destruct O as ((? & ?) & (? & ?) & _); unfold total_of; destruct base; lia.
Qed.
(** No borrowed token escapes the fee: each one (up to rounding per order) was charged for, or came back to the vault by settling, or
    is still on record. *)
Theorem C75_no_evasion : forall so oo L so' oo' base, spot_run so oo L so' oo' -> 0 <= so_bbwf so -> 0 <= so_qbwf so -> oo_ok oo ->
  bwf_of base so + totals (fun f => fl_debt f / fone) (map (flow_of base) L) <= sums base fl_loan L + sums base fl_settled L + bwf_of base so'.
Proof.
  intros so oo L so' oo' base R W1 W2 O. apply side_of_run with (base := base) in R; [|lia|lia|exact O]. apply run_debt in R as [_ R]; unfold sums.
  - exact R.
  - unfold bwf_of; destruct base; lia.
  - destruct O as ((? & ?) & (? & ?) & _); unfold total_of; destruct base; lia.
Qed.
(** What is on record after a settlement is covered by what is still in the open orders account: nothing if all of it was settled. *)
Theorem C75_settle_clears : forall pf s dao ok oo oo' bv bv' qv qv' now s' rec loans, state_ok s -> 0 <= so_bbwf (ss_so s) -> 0 <= so_qbwf (ss_so s) -> oo_ok oo ->
  settle_funds pf s dao ok oo oo' bv bv' qv qv' now = Some (s', rec, loans) ->
  0 <= so_bbwf (ss_so s') <= Z.max 0 (oo_base_total oo - (bv' - bv)) /\ 0 <= so_qbwf (ss_so s') <= Z.max 0 (oo_quote_total oo - (qv' - rec - qv)).
Proof.
  intros pf s dao ok oo oo' bv bv' qv qv' now s' rec loans OK W1 W2 ((O1 & O2) & (O3 & O4) & _) H. apply settle_funds_spec in H; [|exact OK].
  destruct H as [_ B C _ _ _ _ _]. destruct B as [_ _ B _]. destruct C as [_ _ C _]. rewrite B, C by lia. lia.
Qed.
Print Assumptions C75_only_for_used.
Print Assumptions C75_cancelling_is_free.
Print Assumptions C75_at_most_debt.
Print Assumptions C75_no_evasion.
Print Assumptions C75_settle_clears.

(** ** C76: order prices and potential tokens *)
(** In every history every resting order's price lies between the bounds kept for its side, which are set. *)
Theorem C76_prices_tracked : forall so G so' G', order_run so G so' G' -> tracked so G -> tracked so' G'.
Proof. exact order_run_tracked. Qed.
Print Assumptions C76_prices_tracked.
(** With one bank per token: the bank's potential tokens, less those of all open orders accounts of the market, never change
    (they are the other markets'), and an emptied open orders account has none. *)
Theorem C76_potential_sum : forall v A v' A', pot_run (v, A) (v', A') -> Forall pot_ok A ->
  pot_sum so_pot_base A <= fst v -> pot_sum so_pot_quote A <= snd v ->
  fst v' - pot_sum so_pot_base A' = fst v - pot_sum so_pot_base A /\ snd v' - pot_sum so_pot_quote A' = snd v - pot_sum so_pot_quote A /\ Forall pot_ok A'.
Proof.
  intros v A v' A' R F L1 L2. pose proof (pot_run_match _ _ (fst v - pot_sum so_pot_base A) (snd v - pot_sum so_pot_quote A) ltac:(lia) ltac:(lia) R) as M.
  destruct M as (M1 & M2 & M3); [unfold pots_match; cbn [fst snd]; split; [lia|split; [lia|exact F]]|]. cbn [fst snd] in *. split; [lia|]. split; [lia|exact M3].
Qed.
Print Assumptions C76_potential_sum.

(** ** C77: what an order placement needs *)
Lemma limit_iff b : check_deposit_and_oo_limit b = true -> within_deposit_limit b.
Proof.
  unfold check_deposit_and_oo_limit, within_deposit_limit, native_deposits, fmul, of_int. intros H. apply orb_prop in H as [E|E]; [left; apply Z.eqb_eq, E|right].
  apply negb_true_iff, Z.ltb_ge in E. lia.
Qed.
Lemma util_iff b m : enforce_max_utilization b m = true -> within_utilization b m.
Proof. unfold enforce_max_utilization, within_utilization, native_deposits, native_borrows, fmul. intros H. apply negb_true_iff, Z.ltb_ge in H. exact H. Qed.
Theorem C77_conditions : forall e s hc flag pl s' flag' hc', state_ok s -> place_order e s hc flag pl = Some (s', flag', hc') ->
  let payer := payer_bank (pl_bid pl) in let receiver := receiver_bank (pl_bid pl) in
  let spent := of_int (pl_vault pl - pl_vault' pl) in let held := native (payer s) (payer_pos (pl_bid pl) s) in
  0 < pl_lots pl /\ pl_market_reduce pl = false /\
  within_deposit_limit (receiver s') /\
  (held < spent -> b_reduce (payer s') <> 1 /\ b_reduce (payer s') <> 2 /\ within_utilization (payer s') (b_max_util (payer s')) /\
     within_net_borrow_limit (payer s') (pl_oracle pl) /\ within_deposit_limit (payer s')) /\
  (spent <= held -> within_utilization (payer s') fone) /\
  (free_bits (pl_slots pl) = free_bits (pl_slots' pl) \/ pl_band pl = true).
Proof.
  intros e s hc flag pl s' flag' hc' OK H payer receiver spent held. apply place_spec in H as [P K]; [|exact OK].
  split; [apply (pd_lots _ _ _ _ P)|]. split; [apply (pd_market _ _ _ _ P)|]. split; [apply limit_iff, (pc_receiver_limit _ _ _ _ _ _ _ _ K)|].
  split; [|split; [intros HS; apply util_iff, (pc_deposit _ _ _ _ _ _ _ _ K), HS|apply (pc_band _ _ _ _ _ _ _ _ K)]].
  intros HS. destruct (pc_borrow _ _ _ _ _ _ _ _ K HS) as (B1 & B2 & B3 & B4). unfold borrows_reduce_only in B1. apply orb_false_iff in B1 as [B1 B1'].
  split; [apply Z.eqb_neq, B1|]. split; [apply Z.eqb_neq, B1'|]. split; [apply util_iff, B2|]. split; [apply check_net_borrows_iff, B3|apply limit_iff, B4].
Qed.
Print Assumptions C77_conditions.

(** In a reduce-only token an order that may bring more of it is placed only if position and orders together stay below one
    native token; every market of the account with that token counts. *)
Theorem C77_reduce_only : forall e s hc flag pl s' flag' hc', state_ok s -> place_order e s hc flag pl = Some (s', flag', hc') ->
  b_reduce (receiver_bank (pl_bid pl) s) = 1 -> let receiver := if pl_bid pl then se_base e else se_quote e in
  (exists j t pot, token_pos (hc_tokens hc) receiver = Some j /\ nth_error (hc_tokens hc') j = Some t /\ sum_potential hc' (hc_serum hc') j = Some pot /\ ti_spot t + pot < fone) /\
  (forall mi mb mq, In (mi, mb, mq) (pl_markets pl) -> mb = receiver \/ mq = receiver -> exists si, In si (hc_serum hc') /\ si_market si = mi).
Proof.
  intros e s hc flag pl s' flag' hc' OK H R receiver. apply place_spec in H as [P K]; [|exact OK]. split.
  - apply (pc_reduce _ _ _ _ _ _ _ _ K). unfold deposits_reduce_only. rewrite R. reflexivity.
  - exact (pc_markets _ _ _ _ _ _ _ _ K).
Qed.
Print Assumptions C77_reduce_only.

(** Outside a health region an order is placed only if the account is not being liquidated and the init health afterwards
    is nonnegative or no lower than before (in whole units when below -1000). *)
Theorem C77_health : forall e s hc flag pl s' flag' hc', state_ok s -> place_order e s hc flag pl = Some (s', flag', hc') -> pl_region pl = false ->
  flag' = false /\ exists pre post, health hc HInit = Some pre /\ health hc' HInit = Some post /\
    (0 <= post \/ (of_int (-1000) <= post /\ pre <= post) \/ (post < of_int (-1000) /\ fceil pre <= fceil post)).
Proof.
  intros e s hc flag pl s' flag' hc' OK H R. apply place_spec in H as [P K]; [|exact OK]. pose proof (pc_health _ _ _ _ _ _ _ _ K) as X. rewrite R in X.
  destruct X as (pre & pe & post & A & B & C & D & E). split.
  - unfold pre_check in C. destruct (if recover flag pre then _ else _); [discriminate|]. apply some_inj in C. auto.
  - exists pre, post. split; [exact A|]. split; [exact D|]. unfold post_check in E. apply orb_prop in E as [E|E]; [left; apply Z.leb_le, E|right].
    destruct (Z.ltb_spec post (of_int (-1000))) as [L|L]; apply Z.leb_le in E; [right|left]; auto.
Qed.
Print Assumptions C77_health.

(** The health afterwards is the one of the account's new positions and orders. *)
Theorem C77_health_is_actual : forall skip L O P e s hc flag pl s' flag' hc' nb nq, state_ok s -> se_base e <> se_quote e ->
  shows e (native (ss_bb s) (ss_bp s)) (native (ss_qb s) (ss_qp s)) (pl_oo pl) L O -> build_cache skip L O P = Some hc ->
  place_order e s hc flag pl = Some (s', flag', hc') ->
  build_cache skip (positions_now e (native (ss_bb s') (ss_bp s')) (native (ss_qb s') (ss_qp s')) (if pl_bid pl then pl_wr pl else pl_wp pl) (if pl_bid pl then pl_wp pl else pl_wr pl) nb nq L)
    (map (orders_now e (ss_so s') (pl_oo' pl)) O) P = Some hc'.
Proof.
  intros skip L O P e s hc flag pl s' flag' hc' nb nq OK NE SH B H. pose proof H as H0. apply C74_place in H0 as [_ M]; [|exact OK]. apply place_spec in H as [Q K]; [|exact OK].
  destruct (pc_cache _ _ _ _ _ _ _ _ K) as (hc1 & hc2 & i & pj & _ & A1 & A2 & M1 & R1). unfold payer_bank, payer_pos in *.
  destruct (pl_bid pl); cbn zeta in *; destruct M as (_ & MP & MB).
  - assert (E : native (ss_bb s') (ss_bp s') = native (ss_bb s) (ss_bp s)) by (rewrite MP, MB; reflexivity). rewrite E.
    replace (native (ss_bb s) (ss_bp s)) with (native (ss_bb s) (ss_bp s) + 0) by ring.
    replace (native (ss_qb s') (ss_qp s')) with (native (ss_qb s) (ss_qp s) + (native (ss_qb s') (ss_qp s') - native (ss_qb s) (ss_qp s))) by ring.
    exact (cache_now _ _ _ _ _ _ _ _ _ _ _ _ _ _ _ _ _ _ _ _ _ false NE SH B (conj A1 A2) M1 R1).
  - assert (E : native (ss_qb s') (ss_qp s') = native (ss_qb s) (ss_qp s)) by (rewrite MP, MB; reflexivity). rewrite E.
    replace (native (ss_qb s) (ss_qp s)) with (native (ss_qb s) (ss_qp s) + 0) by ring.
    replace (native (ss_bb s') (ss_bp s')) with (native (ss_bb s) (ss_bp s) + (native (ss_bb s') (ss_bp s') - native (ss_bb s) (ss_bp s))) by ring.
    exact (cache_now _ _ _ _ _ _ _ _ _ _ _ _ _ _ _ _ _ _ _ _ _ true NE SH B (conj A1 A2) M1 R1).
Qed.
Print Assumptions C77_health_is_actual.

(** ** C78: cancelling by liquidators *)
(** Only of accounts that are liquidatable or frozen, or in markets in force close. *)
Theorem C78_conditions : forall e s hc flag op force oo oo' bv bv' qv qv' now wb wq s' flag' r,
  force_cancel e s hc flag op force oo oo' bv bv' qv qv' now wb wq = Some (s', flag', r) ->
  exists maint lend, health hc HMaint = Some maint /\ health hc HLiqEnd = Some lend /\
    (r <> None -> op = false \/ force = true \/ (flag = false /\ maint < 0) \/ (flag = true /\ lend <= - fone)) /\
    (r = None -> s' = s /\ op = true /\ force = false /\ flag' = false /\ (flag = false -> 0 <= maint) /\ (flag = true -> - fone < lend)).
Proof.
  intros e s hc flag op force oo oo' bv bv' qv qv' now wb wq s' flag' r H. apply force_cancel_inv in H as (m & l & H1 & H2 & H). exists m, l.
  split; [exact H1|]. split; [exact H2|]. cbn zeta in H. unfold check_liquidatable, recover in H. split.
  - intros NN. destruct r as [[[hc' rec] loans]|]; [|contradiction]. destruct H as ([A|[A|A]] & _); [left; exact A| |right; left; exact A].
    destruct flag.
    + destruct (Z.ltb_spec (- fone) l); cbn in A; [discriminate|]. right; right; right. auto.
    + destruct (Z.leb_spec 0 m); cbn in A; [discriminate|]. right; right; left. auto.
  - intros ->. destruct H as (A & B & C & D & E). split; [exact A|]. split; [exact C|]. split; [exact E|]. destruct flag.
    + destruct (Z.ltb_spec (- fone) l); cbn in B, D; [|contradiction]. split; [exact B|]. split; [discriminate|]. intros _; assumption.
    + destruct (Z.leb_spec 0 m); cbn in B, D; [|contradiction]. split; [exact B|]. split; [auto|discriminate].
Qed.
Print Assumptions C78_conditions.

(** If no loan fee is due, the health afterwards is the one of the account's new positions and orders, and the account stays marked
    as being liquidated exactly if it was or is now, and this LiquidationEnd health is not above -1. *)
Theorem C78_health_is_actual : forall skip L O P e s hc flag op force oo oo' bv bv' qv qv' now wb wq s' flag' hc' rec nb nq, state_ok s -> se_base e <> se_quote e ->
  shows e (native (ss_bb s) (ss_bp s)) (native (ss_qb s) (ss_qp s)) oo L O -> build_cache skip L O P = Some hc ->
  force_cancel e s hc flag op force oo oo' bv bv' qv qv' now wb wq = Some (s', flag', Some (hc', rec, (0, 0))) ->
  build_cache skip (positions_now e (native (ss_bb s') (ss_bp s')) (native (ss_qb s') (ss_qp s')) wb wq nb nq L) (map (orders_now e (ss_so s') oo') O) P = Some hc' /\
  exists maint lend lend', health hc HMaint = Some maint /\ health hc HLiqEnd = Some lend /\ health hc' HLiqEnd = Some lend' /\
    (flag' = true <-> ((flag = true /\ lend <= - fone) \/ (flag = false /\ maint < 0)) /\ lend' <= - fone).
Proof.
  intros skip L O P e s hc flag op force oo oo' bv bv' qv qv' now wb wq s' flag' hc' rec nb nq OK NE SH B H.
  apply force_cancel_inv in H as (m & l & H1 & H2 & _ & x1 & bc & qc & y1 & y2 & i & h' & C & S & A1 & A2 & M1 & R1 & HH & FF). cbn zeta in FF.
  apply (settled_spec _ _ _ _ _ _ _ _ _ _ _ _ _ _ _ _ OK C) in S as (S & CS & SAME). rewrite (SAME eq_refl) in CS. apply pair_equal_spec in CS as [-> ->]. split.
  - pose proof (cache_now skip e L O P hc _ _ _ _ wb wq nb nq _ _ _ _ (ss_so s') oo oo' false NE SH B (conj A1 A2) M1 R1) as Q.
    replace (native (ss_bb s) (ss_bp s) + (native (ss_bb s') (ss_bp s') - native (ss_bb s) (ss_bp s))) with (native (ss_bb s') (ss_bp s')) in Q by ring.
    replace (native (ss_qb s) (ss_qp s) + (native (ss_qb s') (ss_qp s') - native (ss_qb s) (ss_qp s))) with (native (ss_qb s') (ss_qp s')) in Q by ring. exact Q.
  - exists m, l, h'. do 3 (split; [assumption|]). rewrite FF. unfold check_liquidatable, recover. cbn [andb negb].
    destruct flag; cbn [andb].
    + destruct (Z.ltb_spec (- fone) l), (Z.ltb_spec (- fone) h'); cbn [andb negb snd]; split; intros X; try discriminate; try reflexivity; try (split; [left; split; [reflexivity|]|]; lia); destruct X as [[[_ X]|[X _]] Y]; try discriminate; lia.
    + destruct (Z.leb_spec 0 m), (Z.ltb_spec (- fone) h'); cbn [andb negb snd]; split; intros X; try discriminate; try reflexivity; try (split; [right; split; [reflexivity|]|]; lia); destruct X as [[[X _]|[_ X]] Y]; try discriminate; lia.
Qed.
Print Assumptions C78_health_is_actual.

(** ** concrete cases *)
Definition ex_pf : pfun := mkPF (fun l => of_int l) (fun l => if l =? 0 then 0 else fone / l) (fun q l => if l <=? 0 then 0 else q / l) (fun b l => b * Z.max 0 l).
Definition ex_senv : senv := mkSE ex_pf 7 1 0.
Definition ex_spos (n : Z) : tpos := mkTpos (of_int n / 1000000) 1.
(** other users deposited 100000 *)
Definition ex_sbank (p : tpos) : bank :=
  mkBank (1000000 * fone) (1000000 * fone) (of_int 100000 / 1000000 + Z.max (t_ix p) 0) (Z.max (- t_ix p) 0) 0 0 (fone / 200) 0 100 0 (-1) fone 0 0 0 (fone * 9 / 10) 0 ex_par 0.
Definition ex_so0 : sorders := new_orders.
Definition ex_ss0 : sstate := mkSS (ex_sbank (ex_spos 0)) (ex_sbank (ex_spos 5000)) (ex_spos 0) (ex_spos 5000) ex_so0.
Definition ex_L (s : sstate) : list pos_in :=
  [mkPosIn true true true (ex_info 0 100 100 100 100 fone (ss_qb s) (ss_qp s)); mkPosIn true true true (ex_info 1 90 80 110 120 (20 * fone) (ss_bb s) (ss_bp s))].
Definition ex_O (so : sorders) (oo : openorders) : list serum_in := [mkSerumIn 1 0 oo (pf_ask ex_pf (so_ask_lo so)) (pf_bid_inv ex_pf (so_bid_hi so)) 7].
Definition ex_hc (s : sstate) (oo : openorders) : cache := match build_cache false (ex_L s) (ex_O (ss_so s) oo) [] with Some c => c | None => mkHC [] [] [] end.
Definition ex_oo0 : openorders := mkOO 0 0 0 0 0.
Definition ex_oo1 : openorders := mkOO 0 0 0 10000 0.   (* the order rests *)
Definition ex_oo2 : openorders := mkOO 300 300 0 4000 7. (* 300 were bought for 6000 *)
Definition ex_oo3 : openorders := mkOO 0 0 0 4000 0.    (* after settling *)
(** a bid for 500 at 20 with 5000 of its own and 5000 borrowed *)
Definition ex_pl : placement := mkPL true 20 10000 false false true ex_oo0 ex_oo1 [None; None] [Some true; None] 105000 95000 fone true 50 (pct 80, pct 120) (pct 100, pct 100) [(7, 1, 0)].
Definition ex_ss1 : sstate := match place_order ex_senv ex_ss0 (ex_hc ex_ss0 ex_oo0) false ex_pl with Some (s, _, _) => s | None => ex_ss0 end.
Definition ex_settled : option (sstate * Z * (Z * Z)) := settle_funds ex_pf ex_ss1 true true ex_oo2 ex_oo3 100000 100300 95000 95007 60.
Definition ex_ss2 : sstate := match ex_settled with Some (s, _, _) => s | None => ex_ss1 end.
Ltac sok := split; (split; [zc|split; [zc|split; zc]]).
Ltac ook := split; [split; zc|split; [split; zc|zc]].

Example C74_example : state_ok ex_ss0 /\
  (exists hc', place_order ex_senv ex_ss0 (ex_hc ex_ss0 ex_oo0) false ex_pl = Some (ex_ss1, false, hc')) /\
  so_qbwf (ss_so ex_ss1) = 4999 /\ to_int (native (ss_qb ex_ss1) (ss_qp ex_ss1)) = -5000 /\
  state_ok ex_ss1 /\ ex_settled = Some (ex_ss2, 7, (0, 999)) /\ to_int (native (ss_qb ex_ss2) (ss_qp ex_ss2)) = -5005 /\ to_int (native (ss_bb ex_ss2) (ss_bp ex_ss2)) = 300 /\
  to_int (b_fees (ss_qb ex_ss2)) = 11 /\ so_qbwf (ss_so ex_ss2) = 4000 /\ b_serum (ss_bb ex_ss1) = 500 /\ b_serum (ss_bb ex_ss2) = 200 /\ b_serum (ss_qb ex_ss2) = 4000.
Proof.
  split; [sok|]. split; [eexists; vm_compute; reflexivity|]. split; [vm_compute; reflexivity|]. split; [vm_compute; reflexivity|]. split; [sok|].
  split; [vm_compute; reflexivity|]. split; [vm_compute; reflexivity|]. split; [vm_compute; reflexivity|]. split; [vm_compute; reflexivity|].
  split; [vm_compute; reflexivity|]. split; [vm_compute; reflexivity|]. split; vm_compute; reflexivity.
Qed.

(** the order of the example is placed, partly filled and settled: 999 (4999 borrowed, 4000 still in the order) tokens are charged for, 6000 were spent *)
Example C75_example : exists L, spot_run ex_so0 ex_oo0 L (ss_so ex_ss2) ex_oo3 /\ oo_ok ex_oo0 /\
  sums false fl_loan L = 999 /\ sums false fl_lost L = 6000 /\ to_int (sums false fl_debt L) = 4999 /\ sums true fl_settled L = 300.
Proof.
  eexists. split.
  - eapply (sr_place ex_senv ex_ss0 (ex_hc ex_ss0 ex_oo0) false ex_pl ex_ss1); [sok|ook|vm_compute; reflexivity|].
    eapply (sr_dex (ss_so ex_ss1) (pl_oo' ex_pl) ex_oo2); [ook|].
    eapply (sr_settle ex_pf ex_ss1 true true ex_oo2 ex_oo3 100000 100300 95000 95007 60 ex_ss2 7 (0, 999)); [sok|ook|vm_compute; reflexivity|]. apply sr_done.
  - split; [ook|]. split; [vm_compute; reflexivity|]. split; [vm_compute; reflexivity|]. split; vm_compute; reflexivity.
Qed.
(** the same order cancelled and settled: no fee *)
Example C75_cancel_example : exists L s', spot_run ex_so0 ex_oo0 L (ss_so s') ex_oo0 /\ Forall (fun f => fl_lost (flow_of false f) = 0) L /\
  to_int (sums false fl_debt L) = 4999 /\ so_qbwf (ss_so s') = 0.
Proof.
  eexists _, _. split.
  - eapply (sr_place ex_senv ex_ss0 (ex_hc ex_ss0 ex_oo0) false ex_pl ex_ss1); [sok|ook|vm_compute; reflexivity|].
    eapply (sr_dex (ss_so ex_ss1) (pl_oo' ex_pl) (mkOO 0 0 10000 10000 0)); [ook|].
    eapply (sr_settle ex_pf ex_ss1 true true (mkOO 0 0 10000 10000 0) ex_oo0 100000 100000 95000 105000 60); [sok|ook|vm_compute; reflexivity|]. apply sr_done.
  - split; [repeat (constructor; [vm_compute; reflexivity|]); constructor|]. split; vm_compute; reflexivity.
Qed.

Example C76_tracked_example : order_run ex_so0 [None; None] (ss_so ex_ss2) [Some (true, 20); None] /\ tracked ex_so0 [None; None] /\ so_bid_hi (ss_so ex_ss2) = 20.
Proof.
  split; [|split; [split; intros p [E|[E|[]]]; discriminate|vm_compute; reflexivity]].
  eapply (or_place ex_senv ex_ss0 (ex_hc ex_ss0 ex_oo0) false ex_pl ex_ss1 _ _ [None; None] [Some (true, 20); None]); [sok|vm_compute; reflexivity|reflexivity|reflexivity| |].
  - constructor; [right; right; split; reflexivity|constructor; [left; reflexivity|constructor]].
  - eapply (or_settle ex_pf ex_ss1 true true ex_oo2 ex_oo3 100000 100300 95000 95007 60 ex_ss2 7 (0, 999)); [sok|vm_compute; reflexivity|]. apply or_done.
Qed.
Lemma ex_pf_ok : (forall q r, 0 <= q -> 0 <= pf_to_base ex_pf q r /\ 0 <= pf_to_quote ex_pf q r) /\ (forall r, pf_to_base ex_pf 0 r = 0 /\ pf_to_quote ex_pf 0 r = 0).
Proof.
  split.
  - intros q r H. cbn [ex_pf pf_to_base pf_to_quote]. split; [|nia]. destruct (Z.leb_spec r 0); [lia|]. apply Z.div_pos; lia.
  - intros r. cbn [ex_pf pf_to_base pf_to_quote]. split; [|lia]. destruct (Z.leb_spec r 0); [lia|]. apply Z.div_0_l. lia.
Qed.
Lemma pr_step_eq x y x' y' z : pot_step x' y' -> x = x' -> y' = y -> pot_run y z -> pot_run x z.
Proof. intros H -> <- R. exact (pr_step _ _ _ H R). Qed.
Example C76_potential_example : pot_run ((0, 0), []) ((200, 4000), [(ss_so ex_ss2, ex_oo3)]) /\ Forall pot_ok [].
Proof.
  split; [|constructor]. destruct ex_pf_ok as [P0 Z0].
  eapply (pr_step_eq _ ((0, 0), [(new_orders, ex_oo0)])); [apply (ps_open (0, 0) [] ex_oo0); [split; reflexivity|ook]|reflexivity|reflexivity|].
  eapply (pr_step_eq _ ((500, 10000), [(ss_so ex_ss1, ex_oo1)]));
    [eapply (ps_place ex_senv ex_ss0 (ex_hc ex_ss0 ex_oo0) false ex_pl ex_ss1 false _ [] []); [sok|vm_compute; reflexivity|ook|intros [_ E]; discriminate|exact P0|exact Z0]|vm_compute; reflexivity|vm_compute; reflexivity|].
  eapply (pr_step_eq _ ((500, 10000), [(ss_so ex_ss1, ex_oo2)])); [apply (ps_dex (500, 10000) [] [] (ss_so ex_ss1) ex_oo1 ex_oo2); [ook|intros [E _]; discriminate]|reflexivity|reflexivity|].
  eapply (pr_step_eq _ ((200, 4000), [(ss_so ex_ss2, ex_oo3)]));
    [apply (ps_settle ex_pf ex_ss1 true true ex_oo2 ex_oo3 100000 100300 95000 95007 60 ex_ss2 7 (0, 999) [] []); [sok|vm_compute; reflexivity|ook|exact P0|exact Z0]|vm_compute; reflexivity|vm_compute; reflexivity|].
  apply pr_done.
Qed.
(** With two banks of a token the sum is lost: the order is placed with one base bank, cancelled, and settled with the other: the open
    orders account is empty, the account's record is clear, and the first bank keeps the potential of 500. *)
Theorem C76_two_banks_refuted : exists e s hc pl s1 hc1 b2 oo s2 rec loans,
  state_ok s /\ b_serum (ss_bb s) = 0 /\ ss_so s = new_orders /\ place_order e s hc false pl = Some (s1, false, hc1) /\
  side_ok b2 (ss_bp s1) /\ b_serum b2 = 0 /\ oo_base_total oo = oo_base_total (pl_oo' pl) /\ oo_quote_total oo = oo_quote_total (pl_oo' pl) /\
  settle_funds (se_pf e) (mkSS b2 (ss_qb s1) (ss_bp s1) (ss_qp s1) (ss_so s1)) true true oo (mkOO 0 0 0 0 0) 100000 100000 95000 105000 60 = Some (s2, rec, loans) /\
  so_pot_base (ss_so s2) = 0 /\ so_pot_quote (ss_so s2) = 0 /\ b_serum (ss_qb s2) = 0 /\ b_serum (ss_bb s2) = 0 /\ b_serum (ss_bb s1) = 500.
Proof.
  exists ex_senv, ex_ss0, (ex_hc ex_ss0 ex_oo0), ex_pl, ex_ss1. eexists. exists (ex_sbank (ex_spos 0)), (mkOO 0 0 10000 10000 0). eexists _, _, _.
  split; [sok|]. split; [vm_compute; reflexivity|]. split; [reflexivity|]. split; [vm_compute; reflexivity|]. split; [split; [zc|split; [zc|split; zc]]|].
  split; [vm_compute; reflexivity|]. split; [reflexivity|]. split; [reflexivity|]. split; [vm_compute; reflexivity|].
  split; [vm_compute; reflexivity|]. split; [vm_compute; reflexivity|]. split; [vm_compute; reflexivity|]. split; vm_compute; reflexivity.
Qed.
Print Assumptions C76_two_banks_refuted.

Lemma ex_shows s oo : shows ex_senv (native (ss_bb s) (ss_bp s)) (native (ss_qb s) (ss_qp s)) oo (ex_L s) (ex_O (ss_so s) oo).
Proof.
  unfold shows, ex_L, ex_O. cbn [map pin_info ex_info ti_index sin_market se_base se_quote se_market ex_senv].
  split; [constructor; [intros [E|[]]; discriminate|constructor; [intros []|constructor]]|]. split; [constructor; [intros []|constructor]|].
  split; [|split].
  - intros p [<-|[<-|[]]] E; [discriminate|reflexivity].
  - intros p [<-|[<-|[]]] E; [reflexivity|discriminate].
  - intros o [<-|[]] _. auto.
Qed.
Definition ex_reduce (b : bank) (n : Z) : bank :=
  mkBank (b_di b) (b_bi b) (b_dep b) (b_bor b) (b_dust b) (b_fees b) (b_lof b) (b_win_start b) (b_win_size b) (b_win_net b) (b_win_limit b) (b_stable b) (b_dep_limit b) (b_serum b) n (b_max_util b) (b_upd b) (b_par b) (b_fw b).
(** the bid of the example borrows within the limits; the health is that of the new state *)
Example C77_example : state_ok ex_ss0 /\ build_cache false (ex_L ex_ss0) (ex_O (ss_so ex_ss0) ex_oo0) [] = Some (ex_hc ex_ss0 ex_oo0) /\
  (exists hc', place_order ex_senv ex_ss0 (ex_hc ex_ss0 ex_oo0) false ex_pl = Some (ex_ss1, false, hc') /\ option_map to_int (health hc' HInit) = Some 3000) /\
  native (ss_qb ex_ss0) (ss_qp ex_ss0) < of_int (pl_vault ex_pl - pl_vault' ex_pl) /\
  (* without the borrow capacity, in a reduce-only base token, or with the market in reduce-only mode it fails *)
  place_order ex_senv (mkSS (ss_bb ex_ss0) (ex_reduce (ss_qb ex_ss0) 2) (ss_bp ex_ss0) (ss_qp ex_ss0) (ss_so ex_ss0)) (ex_hc ex_ss0 ex_oo0) false ex_pl = None /\
  place_order ex_senv (mkSS (ex_reduce (ss_bb ex_ss0) 1) (ss_qb ex_ss0) (ss_bp ex_ss0) (ss_qp ex_ss0) (ss_so ex_ss0)) (ex_hc ex_ss0 ex_oo0) false ex_pl = None.
Proof.
  split; [sok|]. split; [vm_compute; reflexivity|]. split; [eexists; split; [vm_compute; reflexivity|]; vm_compute; reflexivity|].
  split; [apply Z.ltb_lt; vm_compute; reflexivity|]. split; vm_compute; reflexivity.
Qed.

(** a debt of 6400, 300 tokens free and 100 for sale at half the price *)
Definition ex_sfc (bwf : Z) : sstate := mkSS (ex_sbank (ex_spos 0)) (ex_sbank (ex_spos (-6400))) (ex_spos 0) (ex_spos (-6400)) (mkSO 0 bwf 0 0 10 10 400 1000).
Definition ex_oofc : openorders := mkOO 300 400 0 0 0.
Definition ex_cancelled (bwf : Z) := force_cancel ex_senv (ex_sfc bwf) (ex_hc (ex_sfc bwf) ex_oofc) true true false ex_oofc ex_oo0 100000 100400 95000 95000 60 (pct 80, pct 120) (pct 100, pct 100).
Example C78_example : state_ok (ex_sfc 0) /\ option_map to_int (health (ex_hc (ex_sfc 0) ex_oofc) HLiqEnd) = Some (-601) /\
  exists s' hc', ex_cancelled 0 = Some (s', false, Some (hc', 0, (0, 0))) /\ option_map to_int (health hc' HLiqEnd) = Some 0.
Proof.
  split; [sok|]. split; [vm_compute; reflexivity|]. eexists _, _. split; [vm_compute; reflexivity|]. vm_compute; reflexivity.
Qed.
(** Refuted without the condition on the fee: the loan origination fee charged by the instruction is missing from the health it computes,
    so the mark is removed although the LiquidationEnd health of the account's actual state is -25. *)
Theorem C78_fee_missing_refuted : exists e s L O hc oo oo' s' hc' hc2 rec loans wb wq,
  state_ok s /\ shows e (native (ss_bb s) (ss_bp s)) (native (ss_qb s) (ss_qp s)) oo L O /\ build_cache false L O [] = Some hc /\
  force_cancel e s hc true true false oo oo' 100000 100400 95000 95000 60 wb wq = Some (s', false, Some (hc', rec, loans)) /\
  build_cache false (positions_now e (native (ss_bb s') (ss_bp s')) (native (ss_qb s') (ss_qp s')) wb wq true false L) (map (orders_now e (ss_so s') oo') O) [] = Some hc2 /\
  option_map to_int (health hc2 HLiqEnd) = Some (-25).
Proof.
  exists ex_senv, (ex_sfc 5000), (ex_L (ex_sfc 5000)), (ex_O (ss_so (ex_sfc 5000)) ex_oofc), (ex_hc (ex_sfc 5000) ex_oofc), ex_oofc, ex_oo0. eexists _, _, _, _, _. exists (pct 80, pct 120), (pct 100, pct 100).
  split; [sok|]. split; [apply ex_shows|]. split; [vm_compute; reflexivity|]. split; [vm_compute; reflexivity|]. split; [vm_compute; reflexivity|]. vm_compute; reflexivity.
Qed.
Print Assumptions C78_fee_missing_refuted.
