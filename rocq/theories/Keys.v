(** Order keys and price data.  Models src/state/orderbook/nodes.rs:23-71,
    :221-230 and perp_market.rs:272-275. *)
From Coq Require Import List ZArith Lia Bool.
From Verif Require Import OrderTree.
Import ListNotations.
Open Scope Z_scope.

Definition i64_min : Z := - 2 ^ 63.
Definition i64_max : Z := 2 ^ 63 - 1.
Definition in_i64 (x : Z) : Prop := i64_min <= x <= i64_max.
Definition in_u64 (x : Z) : Prop := 0 <= x <= u64_max.

(** [x as u64] and [x as i64] *)
Definition as_u64 (x : Z) : Z := x mod 2 ^ 64.
Definition as_i64 (x : Z) : Z := let y := x mod 2 ^ 64 in if y <? 2 ^ 63 then y else y - 2 ^ 64.

(** order_type.rs:136-139 [Side]: [true] is Bid, [false] is Ask *)
Definition side := bool.
Definition Bid : side := true.
Definition Ask : side := false.

(** [!x] on u64 *)
Definition not_u64 (x : Z) : Z := u64_max - x.

(** nodes.rs:32-37 *)
Definition new_node_key (sd : side) (price_data seq_num : Z) : Z :=
  Z.lor (Z.shiftl price_data 64) (if sd then not_u64 seq_num else seq_num).

(** nodes.rs:42-48 *)
Definition oracle_pegged_price_data (offset : Z) : Z := as_u64 (as_u64 offset + 2 ^ 63).
(** nodes.rs:53-55 *)
Definition oracle_pegged_price_offset (price_data : Z) : Z := as_i64 (price_data - 2 ^ 63).
(** nodes.rs:60-63: [None] is the error of [require_gte] *)
Definition fixed_price_data (price_lots : Z) : option Z :=
  if 1 <=? price_lots then Some (as_u64 price_lots) else None.
(** nodes.rs:68-71: [None] is a failed assert *)
Definition fixed_price_lots (price_data : Z) : option Z :=
  if price_data <=? i64_max then Some (as_i64 price_data) else None.
(** nodes.rs:221-224 [LeafNode::price_data] *)
Definition price_data (l : leaf) : Z := Z.shiftr (l_key l) 64.

(** perp_market.rs:272-275 [gen_order_id]: returns the new [seq_num] and the id;
    [None]: the u64 counter would overflow *)
Definition gen_order_id (seq_num : Z) (sd : side) (pd : Z) : option (Z * Z) :=
  if seq_num + 1 <=? u64_max then Some (seq_num + 1, new_node_key sd pd (seq_num + 1)) else None.

(** ids generated by a sequence of requests *)
Fixpoint gen_ids (seq_num : Z) (reqs : list (side * Z)) : option (list (side * Z)) :=
  match reqs with
  | [] => Some []
  | (sd, pd) :: rest =>
      match gen_order_id seq_num sd pd with
      | None => None
      | Some (s', id) =>
          match gen_ids s' rest with
          | None => None
          | Some ids => Some ((sd, id) :: ids)
          end
      end
  end.

Lemma lor_key pd s : in_u64 s -> Z.lor (Z.shiftl pd 64) s = pd * 2 ^ 64 + s.
Proof.
  unfold in_u64, u64_max. intros Hs.
  rewrite Z.shiftl_mul_pow2 by lia.
  assert (H0 : Z.land (pd * 2 ^ 64) s = 0).
  { apply Z.bits_inj'. intros n Hn. rewrite Z.land_spec, Z.bits_0.
    destruct (Z_lt_le_dec n 64).
    - rewrite Z.mul_pow2_bits_low by lia. reflexivity.
    - replace s with (s mod 2 ^ 64) by (apply Z.mod_small; lia).
      rewrite (Z.mod_pow2_bits_high s 64 n) by lia. apply andb_false_r. }
  rewrite <- Z.lxor_lor by exact H0. rewrite <- Z.add_nocarry_lxor by exact H0. reflexivity.
Qed.

Lemma not_u64_range s : in_u64 s -> in_u64 (not_u64 s).
Proof. unfold in_u64, not_u64. lia. Qed.

Lemma new_node_key_eq sd pd s : in_u64 s ->
  new_node_key sd pd s = pd * 2 ^ 64 + (if sd then not_u64 s else s).
Proof.
  intros Hs. unfold new_node_key. apply lor_key. destruct sd; [apply not_u64_range|]; exact Hs.
Qed.

Lemma key_price_data sd pd s : in_u64 s -> Z.shiftr (new_node_key sd pd s) 64 = pd.
Proof.
  intros Hs. rewrite new_node_key_eq by exact Hs. rewrite Z.shiftr_div_pow2 by lia.
  assert (H : in_u64 (if sd then not_u64 s else s)) by (destruct sd; [apply not_u64_range|]; exact Hs).
  set (x := if sd then not_u64 s else s) in *. clearbody x. unfold in_u64, u64_max in H.
  symmetry. apply (Z.div_unique _ _ pd x); lia.
Qed.

Lemma key_range sd pd s : in_u64 pd -> in_u64 s -> 0 <= new_node_key sd pd s < 2 ^ 128.
Proof.
  intros Hp Hs. rewrite new_node_key_eq by exact Hs.
  assert (H : in_u64 (if sd then not_u64 s else s)) by (destruct sd; [apply not_u64_range|]; exact Hs).
  set (x := if sd then not_u64 s else s) in *. clearbody x. unfold in_u64, u64_max in *. lia.
Qed.

Lemma ask_key_lt pd1 s1 pd2 s2 : in_u64 s1 -> in_u64 s2 ->
  (new_node_key Ask pd1 s1 < new_node_key Ask pd2 s2 <-> pd1 < pd2 \/ (pd1 = pd2 /\ s1 < s2)).
Proof.
  intros H1 H2. rewrite !new_node_key_eq by assumption. cbv beta iota delta [Ask]. unfold in_u64, u64_max in *. lia.
Qed.
Lemma bid_key_gt pd1 s1 pd2 s2 : in_u64 s1 -> in_u64 s2 ->
  (new_node_key Bid pd2 s2 < new_node_key Bid pd1 s1 <-> pd2 < pd1 \/ (pd1 = pd2 /\ s1 < s2)).
Proof.
  intros H1 H2. rewrite !new_node_key_eq by assumption. cbv beta iota delta [Bid].
  unfold not_u64, in_u64, u64_max in *. lia.
Qed.

Lemma key_inj sd pd1 s1 pd2 s2 : in_u64 s1 -> in_u64 s2 ->
  new_node_key sd pd1 s1 = new_node_key sd pd2 s2 -> pd1 = pd2 /\ s1 = s2.
Proof.
  intros H1 H2. rewrite !new_node_key_eq by assumption.
  destruct sd; unfold not_u64, in_u64, u64_max in *; lia.
Qed.

Lemma pegged_data_eq o : in_i64 o -> oracle_pegged_price_data o = o + 2 ^ 63.
Proof.
  unfold in_i64, i64_min, i64_max, oracle_pegged_price_data, as_u64. intros H.
  rewrite Zplus_mod_idemp_l. apply Z.mod_small. lia.
Qed.
Lemma pegged_offset_eq d : in_u64 d -> oracle_pegged_price_offset d = d - 2 ^ 63.
Proof.
  unfold in_u64, u64_max, oracle_pegged_price_offset, as_i64. intros H. cbn zeta.
  destruct (Z_lt_le_dec d (2 ^ 63)).
  - assert (E : (d - 2 ^ 63) mod 2 ^ 64 = d - 2^63 + 2^64).
    { symmetry. apply (Z.mod_unique _ _ (-1)); lia. }
    rewrite E. destruct (Z.ltb_spec (d - 2 ^ 63 + 2 ^ 64) (2 ^ 63)); lia.
  - rewrite Z.mod_small by lia. destruct (Z.ltb_spec (d - 2 ^ 63) (2 ^ 63)); lia.
Qed.

Lemma gen_ids_seq reqs : forall s ids, 0 <= s -> gen_ids s reqs = Some ids ->
  forall sd id, In (sd, id) ids -> exists pd n, In (sd, pd) reqs /\ s < n <= u64_max /\ id = new_node_key sd pd n.
Proof.
  induction reqs as [|[sd0 pd0] rest IH]; cbn [gen_ids In]; intros s ids Hs H sd id Hin.
  - injection H as <-. destruct Hin.
  - unfold gen_order_id in H. destruct (Z.leb_spec (s + 1) u64_max); [|discriminate].
    destruct (gen_ids (s + 1) rest) as [ids'|] eqn:E; [|discriminate]. injection H as <-.
    destruct Hin as [Heq|Hin].
    + injection Heq as <- <-. exists pd0, (s + 1). split; [left; reflexivity|]. split; [lia|reflexivity].
    + destruct (IH (s + 1) ids' ltac:(lia) E sd id Hin) as (pd & n & H1 & H2 & H3).
      exists pd, n. split; [right; exact H1|]. split; [lia|exact H3].
Qed.

Lemma gen_ids_nodup reqs : forall s ids, 0 <= s -> gen_ids s reqs = Some ids -> NoDup ids.
Proof.
  induction reqs as [|[sd0 pd0] rest IH]; cbn [gen_ids In]; intros s ids Hs H.
  - injection H as <-. constructor.
  - unfold gen_order_id in H. destruct (Z.leb_spec (s + 1) u64_max); [|discriminate].
    destruct (gen_ids (s + 1) rest) as [ids'|] eqn:E; [|discriminate]. injection H as <-.
    constructor; [|exact (IH (s + 1) ids' ltac:(lia) E)].
    intros Hin. destruct (gen_ids_seq rest (s + 1) ids' ltac:(lia) E _ _ Hin) as (pd & n & _ & H2 & H3).
    assert (H4 : in_u64 (s + 1)) by (unfold in_u64; lia).
    assert (H5 : in_u64 n) by (unfold in_u64; lia).
    destruct (key_inj _ _ _ _ _ H4 H5 H3). lia.
Qed.
