(** C06: order keys encode price-time priority. *)
From Coq Require Import List ZArith Lia Bool.
From Verif Require Import OrderTree Keys.
Import ListNotations.
Open Scope Z_scope.

(** the price data can be read back from the key, and the key fits in 128 bits *)
Theorem C06_key_roundtrip : forall sd pd seq_num l, in_u64 pd -> in_u64 seq_num ->
  l_key l = new_node_key sd pd seq_num ->
  price_data l = pd /\ 0 <= l_key l < 2 ^ 128.
Proof.
  intros sd pd s l Hp Hs E. unfold price_data. rewrite E.
  exact (conj (key_price_data sd pd s Hs) (key_range sd pd s Hp Hs)).
Qed.
Print Assumptions C06_key_roundtrip.

(** asks are iterated by ascending key: lower price first, then the earlier order.
    bids by descending key: higher price first, then the earlier order. *)
Theorem C06_price_time_priority : forall pd1 s1 pd2 s2, in_u64 s1 -> in_u64 s2 ->
  (new_node_key Ask pd1 s1 < new_node_key Ask pd2 s2 <-> pd1 < pd2 \/ (pd1 = pd2 /\ s1 < s2)) /\
  (new_node_key Bid pd1 s1 > new_node_key Bid pd2 s2 <-> pd1 > pd2 \/ (pd1 = pd2 /\ s1 < s2)).
Proof.
  intros pd1 s1 pd2 s2 H1 H2. split; [exact (ask_key_lt _ _ _ _ H1 H2)|].
  pose proof (bid_key_gt pd1 s1 pd2 s2 H1 H2). lia.
Qed.
Print Assumptions C06_price_time_priority.

(** ids handed out by a market are pairwise different on each side, whatever the prices *)
Theorem C06_ids_unique : forall seq0 reqs ids, 0 <= seq0 ->
  gen_ids seq0 reqs = Some ids -> NoDup ids /\ map fst ids = map fst reqs.
Proof.
  intros s reqs ids Hs H. split; [exact (gen_ids_nodup reqs s ids Hs H)|].
  revert s ids Hs H. induction reqs as [|[sd pd] rest IH]; cbn [gen_ids In]; intros s ids Hs H.
  - injection H as <-. reflexivity.
  - unfold gen_order_id in H. destruct (Z.leb_spec (s + 1) u64_max); [|discriminate].
    destruct (gen_ids (s + 1) rest) as [ids'|] eqn:E; [|discriminate]. injection H as <-.
    cbn. f_equal. exact (IH (s + 1) ids' ltac:(lia) E).
Qed.
Print Assumptions C06_ids_unique.

(** fixed prices: encodable exactly from 1 on, decoding is the inverse, order is kept *)
Theorem C06_fixed_price : forall p q, in_i64 p -> in_i64 q ->
  (fixed_price_data p = None <-> p < 1) /\
  (forall d, fixed_price_data p = Some d -> in_u64 d /\ fixed_price_lots d = Some p) /\
  (forall d e, fixed_price_data p = Some d -> fixed_price_data q = Some e -> (d < e <-> p < q)).
Proof.
  unfold in_i64, i64_min, i64_max, fixed_price_data, in_u64, u64_max, fixed_price_lots, as_u64, as_i64, i64_max.
  intros p q Hp Hq. destruct (Z.leb_spec 1 p) as [H1|H1].
  - rewrite (Z.mod_small p) by lia. refine (conj _ (conj _ _)).
    + split; [discriminate|lia].
    + intros d E. injection E as <-. split; [lia|]. cbn zeta. rewrite (Z.mod_small p) by lia.
      destruct (Z.leb_spec p (2 ^ 63 - 1)); [|lia]. destruct (Z.ltb_spec p (2 ^ 63)); [|lia]. reflexivity.
    + intros d e E1 E2. injection E1 as <-. destruct (Z.leb_spec 1 q); [|discriminate].
      injection E2 as <-. rewrite (Z.mod_small q) by lia. reflexivity.
  - refine (conj _ (conj _ _)).
    + split; [lia|reflexivity].
    + discriminate.
    + discriminate.
Qed.
Print Assumptions C06_fixed_price.

(** peg offsets: the whole i64 range is encoded, order preserving, both ways invertible *)
Theorem C06_pegged_offset : forall o p, in_i64 o -> in_i64 p ->
  in_u64 (oracle_pegged_price_data o) /\
  oracle_pegged_price_offset (oracle_pegged_price_data o) = o /\
  (oracle_pegged_price_data o < oracle_pegged_price_data p <-> o < p).
Proof.
  intros o p Ho Hp. rewrite !pegged_data_eq by assumption.
  assert (Hr : in_u64 (o + 2 ^ 63)).
  { unfold in_i64, i64_min, i64_max, in_u64, u64_max in *. lia. }
  split; [exact Hr|]. rewrite pegged_offset_eq by exact Hr. split; lia.
Qed.
Print Assumptions C06_pegged_offset.

Theorem C06_pegged_data_roundtrip : forall d, in_u64 d ->
  in_i64 (oracle_pegged_price_offset d) /\
  oracle_pegged_price_data (oracle_pegged_price_offset d) = d.
Proof.
  intros d Hd. rewrite pegged_offset_eq by exact Hd.
  assert (Hr : in_i64 (d - 2 ^ 63)).
  { unfold in_i64, i64_min, i64_max, in_u64, u64_max in *. lia. }
  split; [exact Hr|]. rewrite pegged_data_eq by exact Hr. lia.
Qed.
Print Assumptions C06_pegged_data_roundtrip.

(** concrete case: two bids and two asks at equal prices, and a pegged order at offset -7 *)
Example C06_example :
  gen_ids 41 [(Bid, 100); (Ask, 101); (Bid, 100); (Bid, oracle_pegged_price_data (-7))] =
  Some [(Bid, 100 * 2 ^ 64 + (u64_max - 42)); (Ask, 101 * 2 ^ 64 + 43);
        (Bid, 100 * 2 ^ 64 + (u64_max - 44)); (Bid, (2 ^ 63 - 7) * 2 ^ 64 + (u64_max - 45))].
Proof. vm_compute. reflexivity. Qed.
