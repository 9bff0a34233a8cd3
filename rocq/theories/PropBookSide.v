(** C05 (combined), C07, C46: a book side with fixed and oracle pegged orders. *)
From Coq Require Import List ZArith Lia Bool Permutation Sorted.
From Verif Require Import OrderTree OrderTreeSpec OrderTreeRep BookArena BookArenaProofs BookArenaFacts
  Keys BookSide BookSideSpec BookSideProofs BookSideView BookSideWorst BookDepth.
Import ListNotations.
Open Scope Z_scope.

(** C07.  On every reachable book side whose fixed orders have prices in
    [1, i64::MAX], for every oracle price and time, the combined iterator
    terminates without panic and yields: every fixed order and every pegged order
    with a representable price exactly once, strictly by price-time priority, each
    with its effective price, and marked valid exactly if it is matchable. *)
Theorem C07_combined_iteration :
  forall sd cap s now oracle F P,
    reachable sd cap s -> in_i64 oracle ->
    bs_orders sd s false = Some F -> bs_orders sd s true = Some P -> Forall fixed_ok F ->
  exists items, bs_items sd s now oracle = Some items /\
    let es := map (fun i => (it_pegged i, it_leaf i)) items in
    Permutation es (entries oracle F P) /\
    StronglySorted (before sd oracle) es /\
    Forall (fun i => it_price i = eff_price oracle (it_pegged i, it_leaf i) /\
                     (it_state i = Valid <-> matchable sd now oracle (it_pegged i, it_leaf i)) /\
                     it_state i <> Skipped) items.
Proof.
  intros sd cap s now oracle F P Hr Ho HF HP Hfix.
  assert (Hv : view sd cap s (F, P)) by (split; [exact Hr|]; intros [|]; assumption).
  destruct (merge_ok sd now oracle F P Ho (view_sorted sd cap s (F, P) false Hv)
     (view_sorted sd cap s (F, P) true Hv) Hfix (view_okey sd cap s (F, P) true Hv)) as (M & E1 & P1 & S1).
  exists (map (item_of sd now oracle) M). unfold bs_items. rewrite HF, HP. split; [exact E1|].
  assert (Em : map (fun i => (it_pegged i, it_leaf i)) (map (item_of sd now oracle) M) = M).
  { rewrite map_map. cbn. rewrite <- (map_id M) at 2. apply map_ext. intros [? ?]; reflexivity. }
  cbv zeta. rewrite Em. split; [exact P1|]. split; [exact S1|].
  apply Forall_forall. intros i Hi. apply in_map_iff in Hi as ([c l] & <- & _).
  cbn [item_of it_price it_pegged it_leaf it_state fst snd]. split; [reflexivity|].
  split; [apply spec_state_valid|]. unfold spec_state.
  repeat match goal with |- context [if ?x then _ else _] => destruct x end; discriminate.
Qed.
Print Assumptions C07_combined_iteration.

(** C05, combined.  Nothing is removed only from an empty side; otherwise exactly
    one order is removed; its reported price is its effective price clamped to the
    i64 range, and no remaining order has a worse (clamped) price.  If all pegged
    orders are representable it is exactly the last order of the combined
    iteration and the iteration of the others does not change. *)
Theorem C05_remove_worst_combined :
  forall sd cap s now oracle F P,
    reachable sd cap s -> in_i64 oracle ->
    bs_orders sd s false = Some F -> bs_orders sd s true = Some P -> Forall fixed_ok F ->
  exists s' x, bs_remove_worst sd s now oracle = Some (s', x) /\
  match x with
  | None => F = [] /\ P = [] /\ unchanged sd s s'
  | Some (l, p) => exists c, removed_exactly sd s s' c l /\
      p = Z.max 1 (Z.min i64_max (eff_price oracle (c, l))) /\
      (forall c' L l', bs_orders sd s' c' = Some L -> In l' L ->
         ~ better_price sd p (Z.max 1 (Z.min i64_max (eff_price oracle (c', l'))))) /\
      ((forall l', In l' P -> representable oracle l' = true) ->
       exists items i, bs_items sd s now oracle = Some (items ++ [i]) /\
         bs_items sd s' now oracle = Some items /\ it_pegged i = c /\ it_leaf i = l)
  end.
Proof.
  intros sd cap s now oracle F P Hr Ho HF HP Hfix.
  assert (Hv : view sd cap s (F, P)) by (split; [exact Hr|]; intros [|]; assumption).
  destruct (view_remove_worst sd cap s (F, P) now oracle Hv Ho Hfix) as (s' & x & b' & E & Hv' & Hx).
  exists s', x. split; [exact E|]. destruct x as [[l p]|].
  - destruct Hx as (c & Hm & Hp & Hw). exists c. split.
    { destruct Hm as (A & B & EA & ->). destruct Hv as [_ Hv]. destruct Hv' as [_ Hv']. split.
      - exists A, B. rewrite (Hv c), (Hv' c), EA, get_set_same. auto.
      - rewrite (Hv' (negb c)), (Hv (negb c)), get_set_other. reflexivity. }
    split; [exact Hp|]. split.
    { intros c' L l' HL Hl'. rewrite Hp. destruct Hw as [Hw _]. apply (Hw c').
      destruct Hv' as [_ Hv']. rewrite (Hv' c') in HL. injection HL as ->. exact Hl'. }
    intros Hrep. destruct (worst_is_last sd cap s (F, P) s' b' c l now oracle Hv Hv' Ho Hfix Hm Hw Hrep)
      as (M & E1 & E2).
    rewrite map_app in E1. exists (map (item_of sd now oracle) M), (item_of sd now oracle (c, l)). auto.
  - destruct Hx as [HE ->]. injection HE as -> ->. split; [reflexivity|]. split; [reflexivity|].
    intros c. destruct Hv as [_ Hv]. destruct Hv' as [_ Hv']. rewrite (Hv c), (Hv' c). reflexivity.
Qed.
Print Assumptions C05_remove_worst_combined.

(** C04 on the whole side: an expired order of the given component is preferred,
    then one of the other component; none is missed. *)
Theorem C04_remove_one_expired_side :
  forall sd cap s c now, reachable sd cap s ->
  exists s' x, bs_remove_one_expired sd s c now = Some (s', x) /\
  match x with
  | Some l => expires_at l < now /\ exists c', removed_exactly sd s s' c' l /\
      (forall L l', bs_orders sd s c' = Some L -> In l' L -> expires_at l <= expires_at l') /\
      (c' <> c -> forall L l', bs_orders sd s c = Some L -> In l' L -> now <= expires_at l')
  | None => (forall c' L l', bs_orders sd s c' = Some L -> In l' L -> now <= expires_at l') /\ unchanged sd s s'
  end.
Proof.
  intros sd cap s c now Hr. destruct (view_exists sd cap s Hr) as [b Hv].
  destruct (view_expired sd cap s b c now Hv) as (s' & x & b' & E & Hv' & Hx).
  exists s', x. split; [exact E|]. destruct Hv as [_ Hv]. destruct Hv' as [_ Hv']. destruct x as [l|].
  - destruct Hx as (H1 & c' & (A & B & EA & ->) & H2 & H3). split; [exact H1|]. exists c'. split; [split|split].
    + exists A, B. rewrite (Hv c'), (Hv' c'), EA, get_set_same. auto.
    + rewrite (Hv' (negb c')), (Hv (negb c')), get_set_other. reflexivity.
    + intros L l' HL. rewrite (Hv c') in HL. injection HL as <-. apply H2.
    + intros Hne L l' HL. rewrite (Hv c) in HL. injection HL as <-. apply H3, Hne.
  - destruct Hx as [H1 ->]. split.
    + intros c' L l' HL. rewrite (Hv c') in HL. injection HL as <-. apply H1.
    + intros c'. rewrite (Hv c'), (Hv' c'). reflexivity.
Qed.
Print Assumptions C04_remove_one_expired_side.

(** ** C46: depth queries on the list of valid items (positive quantities and prices) *)
(** [depth L]: the list of (quantity, price), [depth_ok]: quantities > 0, prices >= 1; see BookDepth.v *)
(** impact_price is the price of the order at which the cumulated quantity reaches [q] *)
Theorem C46_impact_price : forall q L p, depth_ok L -> 0 < q ->
  (impact_price q L = Some p <->
   exists A i B, L = A ++ i :: B /\ it_price i = p /\
     total_qty (depth A) < q <= total_qty (depth (A ++ [i]))) /\
  (impact_price q L = None <-> total_qty (depth L) < q).
Proof. exact impact_price_spec. Qed.
Print Assumptions C46_impact_price.

(** matched_amount is the cost of taking [q] base lots *)
Theorem C46_matched_amount : forall q L, depth_ok L -> 0 < q ->
  matched_amount q L =
  (if q <=? total_qty (depth L) then Some (cost_of_taking q (depth L)) else None).
Proof. exact matched_amount_spec. Qed.
Print Assumptions C46_matched_amount.

(** quantity_at_price sums exactly the orders with a price at least as good as the limit *)
Theorem C46_quantity_at_price : forall sd limit L,
  StronglySorted (fun x y => ~ better_price sd (it_price y) (it_price x)) L ->
  quantity_at_price sd limit L =
  total_qty (depth (filter (fun i => if sd then limit <=? it_price i else it_price i <=? limit) L)).
Proof.
  intros sd limit L HL. rewrite (quantity_at_price_spec sd limit L HL). f_equal. f_equal. apply filter_ext.
  intros i. unfold is_price_better. destruct sd.
  - destruct (Z.ltb_spec (it_price i) limit), (Z.leb_spec limit (it_price i)); cbn; lia || reflexivity.
  - destruct (Z.ltb_spec limit (it_price i)), (Z.leb_spec (it_price i) limit); cbn; lia || reflexivity.
Qed.
Print Assumptions C46_quantity_at_price.

(** The documented contract of matched_quantity ("quantity ... to match at least the
    requested amount") is FALSE of the code: it rounds the wrong way.
    An order book with 10 lots at price 100, amount 150: result 1 lot, costing 100. *)
Theorem C46_matched_quantity_covers_amount_refuted :
  exists L amount q, depth_ok L /\ 0 < amount /\ matched_quantity amount L = Some q /\
    cost_of_taking q (depth L) < amount.
Proof. exact matched_quantity_refuted. Qed.
Print Assumptions C46_matched_quantity_covers_amount_refuted.

(** What it does compute: the largest quantity that costs at most [amount]. *)
Theorem C46_matched_quantity : forall amount L, depth_ok L -> 0 < amount ->
  match matched_quantity amount L with
  | Some q => 0 <= q <= total_qty (depth L) /\
              cost_of_taking q (depth L) <= amount /\
              (q < total_qty (depth L) -> amount < cost_of_taking (q + 1) (depth L))
  | None => cost_of_taking (total_qty (depth L)) (depth L) < amount
  end.
Proof. exact matched_quantity_spec. Qed.
Print Assumptions C46_matched_quantity.

(** ** non-trivial instance: asks with fixed orders at 100, 105 and pegged orders at
    oracle+0 (expired), oracle-3 (limit 98: invalid at oracle 100), oracle-200 (skipped) *)
Definition ex_l (k tif peg : Z) : leaf := mkLeaf 0 0 tif k 7 5 1000 peg 0.
Definition ex_fixed (p n : Z) := ex_l (new_node_key Ask p n) 0 (-1).
Definition ex_peg (o n tif peg : Z) := ex_l (new_node_key Ask (oracle_pegged_price_data o) n) tif peg.
Definition ex_hist : list op :=
  [ OInsert false (ex_fixed 105 1); OInsert true (ex_peg 0 2 10 (-1)); OInsert true (ex_peg (-3) 3 0 98);
    OInsert true (ex_peg (-200) 4 0 (-1)); OInsert false (ex_fixed 100 5); OInsert true (ex_peg 3 6 0 (-1))].

Example C07_example :
  exists s outs, bs_run Ask (bs_init 32) ex_hist = Some (s, outs) /\ Forall op_ok ex_hist /\
   option_map (map (fun i => (it_pegged i, it_price i, it_state i))) (bs_items Ask s 1010 100) =
   Some [(true, 97, Invalid); (true, 100, Invalid); (false, 100, Valid); (true, 103, Valid); (false, 105, Valid)] /\
   option_map snd (bs_remove_worst Ask s 1010 100) = Some (Some (ex_fixed 105 1, 105)) /\
   option_map snd (bs_remove_one_expired Ask s false 1011) = Some (Some (ex_peg 0 2 10 (-1))).
Proof.
  eexists _, _. split; [vm_compute; reflexivity|]. split.
  { unfold ex_hist. repeat (apply Forall_cons;
      [unfold op_ok, leaf_ok, KeyBits.key_ok, u64_max; vm_compute; intuition discriminate|]). constructor. }
  vm_compute. repeat split; reflexivity.
Qed.
