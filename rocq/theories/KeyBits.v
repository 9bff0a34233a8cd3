(** Bit-level lemmas about 128-bit keys: shared prefixes, critical bits, order. *)
From Coq Require Import List ZArith Lia Bool.
From Verif Require Import OrderTree.
Open Scope Z_scope.

Definition key_ok (k : Z) : Prop := 0 <= k < 2 ^ 128.

(** [a] and [b] agree on their top [n] (of 128) bits *)
Definition pre (n a b : Z) : Prop := Z.shiftr a (128 - n) = Z.shiftr b (128 - n).

(** the bit right below the top [n] bits *)
Definition bitat (n k : Z) : bool := Z.testbit k (127 - n).

Lemma land_bit_zero k i : 0 <= i ->
  (Z.land k (Z.shiftl 1 i) =? 0) = negb (Z.testbit k i).
Proof.
  intros Hi. destruct (Z.testbit k i) eqn:Hb; cbn [negb].
  - apply Z.eqb_neq. intros H0.
    assert (Ht : Z.testbit (Z.land k (Z.shiftl 1 i)) i = true).
    { rewrite Z.land_spec, Hb, Z.shiftl_spec by lia.
      replace (i - i) with 0 by lia. reflexivity. }
    rewrite H0, Z.bits_0 in Ht. discriminate.
  - apply Z.eqb_eq. apply Z.bits_inj'. intros n Hn.
    rewrite Z.land_spec, Z.bits_0, Z.shiftl_spec by lia.
    destruct (Z.eq_dec n i) as [->|Hne].
    + rewrite Hb. reflexivity.
    + destruct (Z_lt_le_dec n i) as [Hlt|Hge].
      * rewrite (Z.testbit_neg_r 1) by lia. apply andb_false_r.
      * replace 1 with (2 ^ 0) by reflexivity.
        rewrite Z.pow2_bits_false by lia. apply andb_false_r.
Qed.

Lemma crit_bit_spec n k : 0 <= n <= 127 -> crit_bit n k = Some (bitat n k).
Proof.
  intros Hn. unfold crit_bit, bitat.
  replace (0 <=? n) with true by (symmetry; apply Z.leb_le; lia).
  replace (n <=? 127) with true by (symmetry; apply Z.leb_le; lia).
  cbn [andb]. rewrite land_bit_zero by lia. rewrite negb_involutive. reflexivity.
Qed.

Lemma pre_refl n a : pre n a a.
Proof. reflexivity. Qed.
Lemma pre_sym n a b : pre n a b -> pre n b a.
Proof. unfold pre; congruence. Qed.
Lemma pre_trans n a b c : pre n a b -> pre n b c -> pre n a c.
Proof. unfold pre; congruence. Qed.

Lemma pre_weaken m n a b : m <= n <= 128 -> pre n a b -> pre m a b.
Proof.
  unfold pre. intros Hm H.
  replace (128 - m) with ((128 - n) + (n - m)) by lia.
  rewrite <- !Z.shiftr_shiftr by lia. rewrite H. reflexivity.
Qed.

Lemma pre_bit n m a b : 0 <= m -> m < n -> n <= 128 -> pre n a b -> bitat m a = bitat m b.
Proof.
  unfold pre, bitat. intros H0 Hm Hn H.
  replace (127 - m) with ((127 - m - (128 - n)) + (128 - n)) by lia.
  rewrite <- !(Z.shiftr_spec _ _ (127 - m - (128 - n))) by lia.
  rewrite H. reflexivity.
Qed.

Lemma shiftr_step a i : 0 <= i ->
  Z.shiftr a i = 2 * Z.shiftr a (i + 1) + Z.b2z (Z.testbit a i).
Proof.
  intros Hi.
  rewrite (Z.div2_odd (Z.shiftr a i)) at 1.
  rewrite Z.div2_spec, Z.shiftr_shiftr by lia.
  rewrite <- Z.bit0_odd, Z.shiftr_spec by lia. reflexivity.
Qed.

Lemma shiftr_lt_lt a b i : 0 <= i -> Z.shiftr a i < Z.shiftr b i -> a < b.
Proof.
  intros Hi H. destruct (Z_lt_le_dec a b) as [|Hge]; [assumption|].
  rewrite !Z.shiftr_div_pow2 in H by lia.
  assert (b / 2 ^ i <= a / 2 ^ i) by (apply Z.div_le_mono; [apply Z.pow_pos_nonneg; lia|lia]).
  lia.
Qed.

Lemma pre_bit_lt n a b : 0 <= n <= 127 -> pre n a b ->
  bitat n a = false -> bitat n b = true -> a < b.
Proof.
  unfold pre, bitat. intros Hn Hp Ha Hb.
  apply (shiftr_lt_lt a b (127 - n)); [lia|].
  rewrite (shiftr_step a), (shiftr_step b) by lia.
  rewrite Ha, Hb. replace (127 - n + 1) with (128 - n) by lia. rewrite Hp.
  cbn [Z.b2z]. lia.
Qed.

Lemma lxor_range a b : key_ok a -> key_ok b -> 0 <= Z.lxor a b < 2 ^ 128.
Proof.
  unfold key_ok. intros Ha Hb.
  assert (0 <= Z.lxor a b) by (apply Z.lxor_nonneg; lia).
  split; [assumption|].
  destruct (Z.eq_dec (Z.lxor a b) 0) as [->|Hne]; [reflexivity|].
  apply Z.log2_lt_pow2; [lia|].
  eapply Z.le_lt_trans; [apply Z.log2_lxor; lia|].
  apply Z.max_lub_lt.
  - destruct (Z.eq_dec a 0) as [->|]; [cbn; lia|]. apply Z.log2_lt_pow2; lia.
  - destruct (Z.eq_dec b 0) as [->|]; [cbn; lia|]. apply Z.log2_lt_pow2; lia.
Qed.

Definition shared (a b : Z) : Z := clz128 (Z.lxor a b).

Lemma shared_eq a : shared a a = 128.
Proof. unfold shared. rewrite Z.lxor_nilpotent. reflexivity. Qed.

Lemma shared_neq a b : key_ok a -> key_ok b -> a <> b ->
  0 <= shared a b <= 127 /\ pre (shared a b) a b /\
  bitat (shared a b) a = negb (bitat (shared a b) b).
Proof.
  intros Ha Hb Hne. pose proof (lxor_range a b Ha Hb) as Hr.
  assert (Hx : Z.lxor a b <> 0).
  { intros H0. apply Z.lxor_eq in H0. congruence. }
  unfold shared, clz128. apply Z.eqb_neq in Hx as Hx'. rewrite Hx'.
  assert (Hl : 0 <= Z.log2 (Z.lxor a b) < 128).
  { split; [apply Z.log2_nonneg|]. apply Z.log2_lt_pow2; lia. }
  split; [lia|]. split.
  - unfold pre. apply Z.bits_inj'. intros i Hi.
    rewrite !Z.shiftr_spec by lia.
    assert (Hbt : Z.testbit (Z.lxor a b) (i + (128 - (127 - Z.log2 (Z.lxor a b)))) = false).
    { apply Z.bits_above_log2; lia. }
    rewrite Z.lxor_spec in Hbt.
    destruct (Z.testbit a _), (Z.testbit b _); cbn in Hbt; congruence.
  - unfold bitat.
    replace (127 - (127 - Z.log2 (Z.lxor a b))) with (Z.log2 (Z.lxor a b)) by lia.
    assert (Hbt : Z.testbit (Z.lxor a b) (Z.log2 (Z.lxor a b)) = true).
    { apply Z.bit_log2. lia. }
    rewrite Z.lxor_spec in Hbt.
    destruct (Z.testbit a _), (Z.testbit b _); cbn in Hbt |- *; congruence.
Qed.

Lemma shared_pre a b n : key_ok a -> key_ok b -> 0 <= n <= 127 ->
  n <= shared a b <-> pre n a b.
Proof.
  intros Ha Hb Hn. destruct (Z.eq_dec a b) as [->|Hne].
  - rewrite shared_eq. split; [intros _; apply pre_refl | lia].
  - destruct (shared_neq a b Ha Hb Hne) as (Hs & Hp & Hbit). split.
    + intros Hle. eapply pre_weaken; [|exact Hp]. lia.
    + intros Hpn. destruct (Z_le_gt_dec n (shared a b)) as [|Hgt]; [assumption|].
      exfalso. pose proof (pre_bit n (shared a b) a b ltac:(lia) ltac:(lia) ltac:(lia) Hpn) as He.
      rewrite He in Hbit. destruct (bitat (shared a b) b); discriminate.
Qed.

