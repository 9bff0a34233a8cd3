(** C43: low precision division. *)
From Coq Require Import ZArith Lia Bool.
From Verif Require Import Fixed Div30 Div30Facts.
Open Scope Z_scope.

Lemma lz64 x : 0 < x < 2 ^ 64 -> 0 <= lz 64 x <= 63 /\ 2 ^ (63 - lz 64 x) <= x < 2 ^ (64 - lz 64 x).
Proof.
  intros H. unfold lz. destruct (Z.leb_spec x 0); [lia|]. pose proof (Z.log2_spec x ltac:(lia)) as [L1 L2].
  assert (Z.log2 x < 64) by (apply Z.log2_lt_pow2; lia). pose proof (Z.log2_nonneg x). split; [lia|].
  replace (63 - (64 - 1 - Z.log2 x)) with (Z.log2 x) by lia. replace (64 - (64 - 1 - Z.log2 x)) with (Z.succ (Z.log2 x)) by lia. lia.
Qed.
(** the value a call computes, for a nonzero numerator *)
Lemma div30_facts a b : in_i128 a -> in_i128 b -> b <> 0 -> a <> - 2 ^ 127 -> b <> - 2 ^ 127 ->
  exists r ovf,
    div30 a b = (if ovf : bool then DNone else DSome (if xorb (a <? 0) (b <? 0) then - r else r)) /\
    0 <= r /\ r * Z.abs b * 2 ^ 31 <= Z.abs a * 2 ^ 48 * (2 ^ 31 + 1) /\
    Z.abs a * 2 ^ 48 * (2 ^ 30 - 1) <= (r + 1) * Z.abs b * 2 ^ 30 /\
    (a = 0 -> ovf = false /\ r = 0) /\
    (ovf = true -> 2 ^ 127 <= r) /\ (ovf = false -> r < 2 ^ 127).
Proof.
  intros Ha Hb Hb0 Hma Hmb. unfold in_i128 in *. unfold div30.
  destruct (Z.eqb_spec b 0); [lia|]. destruct (Z.eqb_spec a (- 2 ^ 127)); [lia|]. destruct (Z.eqb_spec b (- 2 ^ 127)); [lia|].
  cbn [orb].
  destruct (top_b (Z.abs b) ltac:(lia)) as (tb & B1 & B2 & B3 & B4 & B5).
  set (br := (if 96 <=? lz 128 (Z.abs b) then Z.abs b else Z.shiftr (Z.abs b) (96 - lz 128 (Z.abs b))) mod 2 ^ 64) in *.
  rewrite B1. destruct (Z.eq_dec a 0) as [->|Ha0].
  - exists 0, false. change (Z.abs 0) with 0. change (lz 128 0) with 128. change (64 <=? 128) with true. cbv iota.
    change (128 - 64) with 64. change (Z.shiftl 0 64 mod 2 ^ 64) with 0. rewrite Z.div_0_l by lia. change (lz 64 0) with 64.
    destruct (Z.ltb_spec (63 + 64) (48 + - tb - 64)); [lia|].
    assert (E : (if 0 <=? 48 + - tb - 64 then Z.shiftl 0 (48 + - tb - 64) else Z.shiftr 0 (- (48 + - tb - 64))) = 0).
    { destruct (0 <=? 48 + - tb - 64); [apply Z.shiftl_0_l|apply Z.shiftr_0_l]. }
    rewrite E. split; [reflexivity|]. split; [lia|]. split; [lia|]. split; [lia|]. split; [split; reflexivity|].
    split; [discriminate|]. intros _. reflexivity.
  - destruct (top_a (Z.abs a) ltac:(lia)) as (A1 & A2 & A3 & A4).
    set (ar := (if 64 <=? lz 128 (Z.abs a) then Z.shiftl (Z.abs a) (lz 128 (Z.abs a) - 64) else Z.shiftr (Z.abs a) (64 - lz 128 (Z.abs a))) mod 2 ^ 64) in *.
    set (la := Z.log2 (Z.abs a)) in *. rewrite A1.
    set (s := 48 + - tb - (63 - la)). set (rr := ar / br).
    set (r := if 0 <=? s then Z.shiftl rr s else Z.shiftr rr (- s)).
    destruct (core (Z.abs a) (Z.abs b) ar br rr r la tb s) as (C1 & C2 & C3 & C4 & C5 & C6); try assumption; try reflexivity; try lia.
    destruct (lz64 rr) as (Z1 & Z2 & Z3); [lia|].
    exists r, (63 + lz 64 rr <? s). split; [reflexivity|]. split; [exact C1|]. split; [exact C2|]. split; [exact C3|].
    split; [lia|]. split.
    + intros Ho. apply Z.ltb_lt in Ho. unfold r. destruct (Z.leb_spec 0 s); [|lia]. rewrite Z.shiftl_mul_pow2 by lia.
      assert (2 ^ (63 - lz 64 rr) * 2 ^ s <= rr * 2 ^ s) by (apply Z.mul_le_mono_nonneg_r; [apply Z.pow_nonneg; lia|lia]).
      rewrite <- Z.pow_add_r in H0 by lia.
      assert (2 ^ 127 <= 2 ^ (63 - lz 64 rr + s)) by (apply Z.pow_le_mono_r; lia). lia.
    + intros Ho. apply Z.ltb_ge in Ho. unfold r. destruct (Z.leb_spec 0 s).
      * rewrite Z.shiftl_mul_pow2 by lia.
        assert (rr * 2 ^ s < 2 ^ (64 - lz 64 rr) * 2 ^ s) by (apply Z.mul_lt_mono_pos_r; [apply Z.pow_pos_nonneg; lia|lia]).
        rewrite <- Z.pow_add_r in H0 by lia.
        assert (2 ^ (64 - lz 64 rr + s) <= 2 ^ 127) by (apply Z.pow_le_mono_r; lia). lia.
      * rewrite Z.shiftr_div_pow2 by lia. assert (rr / 2 ^ (- s) <= rr).
        { apply Z.div_le_upper_bound; [apply Z.pow_pos_nonneg; lia|]. assert (P : 0 < 2 ^ (- s)) by (apply Z.pow_pos_nonneg; lia). revert P. generalize (2 ^ (- s)). intros w Pw.
          assert (1 * rr <= w * rr) by (apply Z.mul_le_mono_nonneg_r; lia). lia. }
        assert (2 ^ 64 < 2 ^ 127) by reflexivity. lia.
Qed.

(** C43: a returned quotient is representable, has the right sign and differs from the exact
    quotient [a * 2^48 / b] (in units of the last place) by a factor within
    [1 - 2^-30, 1 + 2^-31] and one unit *)
Theorem C43_precision (a b r : Z) : in_i128 a -> in_i128 b -> div30 a b = DSome r ->
  b <> 0 /\ in_i128 r /\
  (0 <= a -> 0 < b -> 0 <= r) /\ (0 <= a -> b < 0 -> r <= 0) /\ (a < 0 -> 0 < b -> r <= 0) /\ (a < 0 -> b < 0 -> 0 <= r) /\
  Z.abs r * Z.abs b * 2 ^ 31 <= Z.abs a * 2 ^ 48 * (2 ^ 31 + 1) /\
  Z.abs a * 2 ^ 48 * (2 ^ 30 - 1) <= (Z.abs r + 1) * Z.abs b * 2 ^ 30.
Proof.
  intros Ha Hb H.
  assert (Hb0 : b <> 0) by (intros ->; discriminate).
  assert (Hm : a <> - 2 ^ 127 /\ b <> - 2 ^ 127).
  { unfold div30 in H. destruct (Z.eqb_spec b 0); [lia|].
    destruct (Z.eqb_spec a (- 2 ^ 127)); [cbn [orb] in H; discriminate|]. destruct (Z.eqb_spec b (- 2 ^ 127)); [cbn [orb] in H; discriminate|]. split; assumption. }
  destruct (div30_facts a b Ha Hb Hb0 (proj1 Hm) (proj2 Hm)) as (q & ovf & E & Q0 & Q1 & Q2 & Q3 & Q4 & Q5).
  rewrite E in H. destruct ovf; [discriminate|]. specialize (Q5 eq_refl). inversion H. clear H.
  split; [exact Hb0|]. unfold in_i128.
  destruct (Z.ltb_spec a 0), (Z.ltb_spec b 0); cbn [xorb] in *; subst r;
    (split; [lia|]); (split; [lia|]); (split; [lia|]); (split; [lia|]); (split; [lia|]).
  - rewrite (Z.abs_eq q) by lia. split; assumption.
  - rewrite Z.abs_opp, (Z.abs_eq q) by lia. split; assumption.
  - rewrite Z.abs_opp, (Z.abs_eq q) by lia. split; assumption.
  - rewrite (Z.abs_eq q) by lia. split; assumption.
Qed.
(** 1000 / 3 *)
Example C43_precision_ex : in_i128 (of_int 1000) /\ in_i128 (of_int (-3)) /\
  div30 (of_int 1000) (of_int (-3)) = DSome (-93824992231292928).
Proof. split; [split; vm_compute; [discriminate|reflexivity]|]. split; [split; vm_compute; [discriminate|reflexivity]|]. vm_compute; reflexivity. Qed.
Print Assumptions C43_precision.

(** C43: [None] is only returned for a zero divisor or when the quotient, enlarged by
    at most [2^-31], exceeds the range; a panic only happens for the most negative number *)
Theorem C43_defined (a b : Z) : in_i128 a -> in_i128 b ->
  (div30 a b = DPanic <-> b <> 0 /\ (a = - 2 ^ 127 \/ b = - 2 ^ 127)) /\
  (b = 0 -> div30 a b = DNone) /\
  (b <> 0 -> div30 a b = DNone -> 2 ^ 127 * Z.abs b * 2 ^ 31 <= Z.abs a * 2 ^ 48 * (2 ^ 31 + 1)) /\
  (b <> 0 -> a <> - 2 ^ 127 -> b <> - 2 ^ 127 -> Z.abs a * 2 ^ 48 * (2 ^ 31 + 1) < 2 ^ 127 * Z.abs b * 2 ^ 31 ->
     exists r, div30 a b = DSome r).
Proof.
  intros Ha Hb.
  assert (P : div30 a b = DPanic <-> b <> 0 /\ (a = - 2 ^ 127 \/ b = - 2 ^ 127)).
  { split.
    - intros H. destruct (Z.eq_dec b 0) as [->|Hb0]; [discriminate|]. split; [exact Hb0|].
      destruct (Z.eq_dec a (- 2 ^ 127)); [left; assumption|]. destruct (Z.eq_dec b (- 2 ^ 127)); [right; assumption|].
      destruct (div30_facts a b Ha Hb Hb0 n n0) as (q & ovf & E & _). rewrite E in H. destruct ovf; discriminate.
    - intros [Hb0 H]. unfold div30. destruct (Z.eqb_spec b 0); [lia|].
      destruct H as [-> | ->]; rewrite Z.eqb_refl; [reflexivity|rewrite orb_true_r; reflexivity]. }
  split; [exact P|]. split; [intros ->; reflexivity|].
  assert (N : b <> 0 -> div30 a b = DNone -> 2 ^ 127 * Z.abs b * 2 ^ 31 <= Z.abs a * 2 ^ 48 * (2 ^ 31 + 1)).
  { intros Hb0 H. destruct (Z.eq_dec a (- 2 ^ 127)) as [Ea|Ea]; [exfalso; rewrite (proj2 P) in H; [discriminate|tauto]|].
    destruct (Z.eq_dec b (- 2 ^ 127)) as [Eb|Eb]; [exfalso; rewrite (proj2 P) in H; [discriminate|tauto]|].
    destruct (div30_facts a b Ha Hb Hb0 Ea Eb) as (q & ovf & E & Q0 & Q1 & Q2 & Q3 & Q4 & Q5). rewrite E in H.
    destruct ovf; [|discriminate]. specialize (Q4 eq_refl).
    assert (2 ^ 127 * Z.abs b * 2 ^ 31 <= q * Z.abs b * 2 ^ 31); [|lia].
    apply Z.mul_le_mono_nonneg_r; [lia|]. apply Z.mul_le_mono_nonneg_r; [lia|exact Q4]. }
  split; [exact N|]. intros Hb0 Ea Eb Hlt. destruct (div30 a b) as [| |r] eqn:E.
  - exfalso. destruct (proj1 P eq_refl) as [_ [?|?]]; contradiction.
  - exfalso. specialize (N Hb0 eq_refl). lia.
  - exists r. reflexivity.
Qed.
Example C43_defined_ex : div30 (2 ^ 126) 1 = DNone /\ div30 (- 2 ^ 127) fone = DPanic /\ div30 (2 ^ 120) fone = DSome (2 ^ 120).
Proof. split; [vm_compute; reflexivity|]. split; vm_compute; reflexivity. Qed.
Print Assumptions C43_defined.

(** C43: clamping to integers rounds down and saturates *)
Theorem C43_clamp (x : Z) :
  clamp_to_i64 x = Z.max (- 2 ^ 63) (Z.min (2 ^ 63 - 1) (x / 2 ^ 48)) /\
  clamp_to_u64 x = Z.max 0 (Z.min (2 ^ 64 - 1) (x / 2 ^ 48)).
Proof.
  pose proof (to_int_bounds x) as B. unfold clamp_to_i64, clamp_to_u64, to_int, of_int in *.
  change (2 ^ 48) with fone. pose proof fone_pos. set (q := x / fone) in *. split.
  - destruct (Z.leb_spec x (- 2 ^ 63 * fone)); [|destruct (Z.leb_spec ((2 ^ 63 - 1) * fone) x)].
    + assert (q <= - 2 ^ 63) by nia. lia.
    + assert (2 ^ 63 - 1 <= q) by nia. lia.
    + assert (- 2 ^ 63 <= q) by nia. assert (q < 2 ^ 63 - 1) by nia. lia.
  - destruct (Z.leb_spec x 0); [|destruct (Z.leb_spec ((2 ^ 64 - 1) * fone) x)].
    + assert (q <= 0) by nia. lia.
    + assert (2 ^ 64 - 1 <= q) by nia. lia.
    + assert (0 <= q) by nia. assert (q < 2 ^ 64 - 1) by nia. lia.
Qed.
Example C43_clamp_ex : clamp_to_i64 (-1) = -1 /\ clamp_to_u64 (fone * 7 / 2) = 3 /\ clamp_to_i64 (2 ^ 126) = 2 ^ 63 - 1.
Proof. split; [vm_compute; reflexivity|]. split; vm_compute; reflexivity. Qed.
Print Assumptions C43_clamp.
