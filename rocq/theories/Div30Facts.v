From Coq Require Import ZArith Lia Bool.
From Verif Require Import Fixed Div30.
Open Scope Z_scope.

Lemma pow_pos n : 0 < 2 ^ n \/ n < 0.
Proof. destruct (Z.le_gt_cases 0 n); [left; apply Z.pow_pos_nonneg; lia|right; lia]. Qed.
Lemma pow_split a b : 0 <= a -> 0 <= b -> 2 ^ (a + b) = 2 ^ a * 2 ^ b.
Proof. intros; apply Z.pow_add_r; assumption. Qed.

(** the top 64 bits of the numerator *)
Lemma top_a A : 0 < A < 2 ^ 127 -> let la := Z.log2 A in let z := lz 128 A in
  let ar := (if 64 <=? z then Z.shiftl A (z - 64) else Z.shiftr A (64 - z)) mod 2 ^ 64 in
  (if 64 <=? z then z - 64 else - (64 - z)) = 63 - la /\ 0 <= la <= 126 /\
  2 ^ 63 <= ar < 2 ^ 64 /\ ar * 2 ^ (la + 1) <= A * 2 ^ 64 < (ar + 1) * 2 ^ (la + 1).
Proof.
  intros HA la z ar.
  assert (Hl : 0 <= la) by apply Z.log2_nonneg.
  pose proof (Z.log2_spec A ltac:(lia)) as [L1 L2]. fold la in L1, L2.
  assert (Hl2 : la <= 126). { assert (la < 127); [|lia]. apply Z.log2_lt_pow2; lia. }
  assert (Ez : z = 127 - la). { unfold z, lz. destruct (Z.leb_spec A 0); [lia|]. unfold la. lia. }
  assert (P1 : 0 < 2 ^ la) by (apply Z.pow_pos_nonneg; lia).
  assert (Es : 2 ^ (la + 1) = 2 * 2 ^ la) by (rewrite Z.pow_add_r by lia; change (2 ^ 1) with 2; ring).
  rewrite <- Z.add_1_r, Es in L2.
  split; [rewrite Ez; destruct (Z.leb_spec 64 (127 - la)); lia|]. split; [lia|].
  assert (G : exists x, (if 64 <=? z then Z.shiftl A (z - 64) else Z.shiftr A (64 - z)) = x /\ 2 ^ 63 <= x < 2 ^ 64 /\
     x * 2 ^ (la + 1) <= A * 2 ^ 64 < (x + 1) * 2 ^ (la + 1)).
  { eexists. split; [reflexivity|]. rewrite Ez. destruct (Z.leb_spec 64 (127 - la)) as [H|H].
    - replace (127 - la - 64) with (63 - la) by lia. rewrite Z.shiftl_mul_pow2 by lia.
      set (u := 2 ^ (63 - la)). assert (Pu : 0 < u) by (apply Z.pow_pos_nonneg; lia).
      assert (Eu : 2 ^ la * u = 2 ^ 63) by (unfold u; rewrite <- Z.pow_add_r by lia; f_equal; lia).
      change (2 ^ 64) with (2 * 2 ^ 63). rewrite <- Eu, Es. split; [split; nia|]. split; nia.
    - replace (64 - (127 - la)) with (la - 63) by lia. rewrite Z.shiftr_div_pow2 by lia.
      set (u := 2 ^ (la - 63)). assert (Pu : 0 < u) by (apply Z.pow_pos_nonneg; lia).
      assert (Eu : 2 ^ la = 2 ^ 63 * u) by (unfold u; rewrite <- Z.pow_add_r by lia; f_equal; lia).
      pose proof (Z.div_mod A u ltac:(lia)) as D. pose proof (Z.mod_pos_bound A u Pu) as M.
      set (x := A / u) in *. rewrite Es, Eu in *. change (2 ^ 64) with (2 * 2 ^ 63) in *.
      assert (2 ^ 63 <= x). { apply Z.div_le_lower_bound; lia. }
      assert (x < 2 * 2 ^ 63). { apply Z.div_lt_upper_bound; lia. }
      split; [lia|]. pose proof (Z.pow_pos_nonneg 2 63). split; nia. }
  destruct G as (x & Ex & X1 & X2). unfold ar. rewrite Ex, Z.mod_small by lia. split; assumption.
Qed.
(** the top 32 bits of the denominator *)
Lemma top_b B : 0 < B < 2 ^ 127 -> let z := lz 128 B in
  let br := (if 96 <=? z then B else Z.shiftr B (96 - z)) mod 2 ^ 64 in
  exists tb, (if 96 <=? z then 0 else - (96 - z)) = - tb /\ 0 <= tb <= 95 /\
  0 < br < 2 ^ 32 /\ br * 2 ^ tb <= B /\ B * 2 ^ 31 <= br * 2 ^ tb * (2 ^ 31 + 1).
Proof.
  intros HB z br. set (lb := Z.log2 B). assert (Hl : 0 <= lb) by apply Z.log2_nonneg.
  pose proof (Z.log2_spec B ltac:(lia)) as [L1 L2]. fold lb in L1, L2.
  assert (Hl2 : lb <= 126). { assert (lb < 127); [|lia]. apply Z.log2_lt_pow2; lia. }
  assert (Ez : z = 127 - lb). { unfold z, lz. destruct (Z.leb_spec B 0); [lia|]. unfold lb. lia. }
  assert (P1 : 0 < 2 ^ lb) by (apply Z.pow_pos_nonneg; lia).
  assert (Es : 2 ^ (lb + 1) = 2 * 2 ^ lb) by (rewrite Z.pow_add_r by lia; change (2 ^ 1) with 2; ring).
  rewrite <- Z.add_1_r, Es in L2. unfold br. rewrite Ez. destruct (Z.leb_spec 96 (127 - lb)) as [H|H].
  - exists 0. assert (2 ^ lb <= 2 ^ 31) by (apply Z.pow_le_mono_r; lia). change (2 ^ 32) with (2 * 2 ^ 31).
    rewrite Z.mod_small by (change (2 ^ 64) with (2 ^ 33 * 2 ^ 31); change (2 ^ 33) with 8589934592; lia).
    change (2 ^ 0) with 1. repeat split; lia.
  - exists (lb - 31). replace (96 - (127 - lb)) with (lb - 31) by lia. rewrite Z.shiftr_div_pow2 by lia.
    set (u := 2 ^ (lb - 31)). assert (Pu : 0 < u) by (apply Z.pow_pos_nonneg; lia).
    assert (Eu : 2 ^ lb = 2 ^ 31 * u) by (unfold u; rewrite <- Z.pow_add_r by lia; f_equal; lia).
    pose proof (Z.div_mod B u ltac:(lia)) as D. pose proof (Z.mod_pos_bound B u Pu) as M.
    set (x := B / u) in *. rewrite Eu in *.
    assert (X1 : 2 ^ 31 <= x) by (apply Z.div_le_lower_bound; lia).
    assert (X2 : x < 2 * 2 ^ 31) by (apply Z.div_lt_upper_bound; lia).
    rewrite Z.mod_small by (change (2 ^ 64) with (2 ^ 33 * 2 ^ 31); change (2 ^ 33) with 8589934592; pose proof (Z.pow_pos_nonneg 2 31); lia).
    split; [lia|]. split; [lia|]. change (2 ^ 32) with (2 * 2 ^ 31). pose proof (Z.pow_pos_nonneg 2 31).
    split; [lia|]. split; [nia|].
    assert (B <= x * u + u) by lia. assert (u * 2 ^ 31 <= x * u) by nia. nia.
Qed.

(** the arithmetic core *)
Lemma core A B ar br rr r la tb s :
  0 < A -> 0 < B -> 0 <= la -> 0 <= tb -> s = 48 - tb - (63 - la) ->
  2 ^ 63 <= ar < 2 ^ 64 -> ar * 2 ^ (la + 1) <= A * 2 ^ 64 < (ar + 1) * 2 ^ (la + 1) ->
  0 < br < 2 ^ 32 -> br * 2 ^ tb <= B -> B * 2 ^ 31 <= br * 2 ^ tb * (2 ^ 31 + 1) ->
  rr = ar / br -> r = (if 0 <=? s then Z.shiftl rr s else Z.shiftr rr (- s)) ->
  0 <= r /\ r * B * 2 ^ 31 <= A * 2 ^ 48 * (2 ^ 31 + 1) /\ A * 2 ^ 48 * (2 ^ 30 - 1) <= (r + 1) * B * 2 ^ 30 /\
  2 ^ 31 <= rr < 2 ^ 64 /\ rr * br <= ar /\ (0 <= s -> rr * 2 ^ s * B * 2 ^ 31 <= A * 2 ^ 48 * (2 ^ 31 + 1)).
Proof.
  intros HA HB Hla Htb Es Har HX Hbr HY1 HY2 Err Er.
  assert (R1 : rr * br <= ar) by (rewrite Err, Z.mul_comm; apply Z.mul_div_le; lia).
  assert (R2 : ar < (rr + 1) * br).
  { rewrite Err. pose proof (Z.div_mod ar br ltac:(lia)). pose proof (Z.mod_pos_bound ar br ltac:(lia)). nia. }
  assert (R3 : 2 ^ 31 <= rr).
  { rewrite Err. apply Z.div_le_lower_bound; [lia|]. change (2 ^ 63) with (2 ^ 32 * 2 ^ 31) in Har. nia. }
  assert (R4 : rr < 2 ^ 64). { assert (rr * 1 <= rr * br) by (apply Z.mul_le_mono_nonneg_l; lia). lia. }
  set (Q := 2 ^ (la + 1)) in *. assert (PQ : 0 < Q) by (apply Z.pow_pos_nonneg; lia).
  set (T := 2 ^ tb) in *. assert (PT : 0 < T) by (apply Z.pow_pos_nonneg; lia).
  (* r against rr: r * T * 2^64 <= rr * 2^48 * Q < (r+1) * T * 2^64 *)
  assert (RR : 0 <= r /\ r * (T * 2 ^ 64) <= rr * (2 ^ 48 * Q) < (r + 1) * (T * 2 ^ 64) /\
               (0 <= s -> rr * 2 ^ s * (T * 2 ^ 64) = rr * (2 ^ 48 * Q))).
  { destruct (Z.leb_spec 0 s) as [Hs|Hs].
    - rewrite Z.shiftl_mul_pow2 in Er by lia. set (S := 2 ^ s) in *. assert (PS : 0 < S) by (apply Z.pow_pos_nonneg; lia).
      assert (E : S * (T * 2 ^ 64) = 2 ^ 48 * Q).
      { unfold S, T, Q. rewrite <- !Z.pow_add_r by lia. f_equal. lia. }
      assert (E2 : r * (T * 2 ^ 64) = rr * (2 ^ 48 * Q)) by (rewrite <- E, Er; ring).
      assert (0 < T * 2 ^ 64) by lia.
      split; [rewrite Er; apply Z.mul_nonneg_nonneg; lia|]. split; [lia|]. intros _. rewrite <- E2, Er. reflexivity.
    - rewrite Z.shiftr_div_pow2 in Er by lia. set (S := 2 ^ (- s)) in *. assert (PS : 0 < S) by (apply Z.pow_pos_nonneg; lia).
      assert (E : T * 2 ^ 64 = S * (2 ^ 48 * Q)).
      { unfold S, T, Q. rewrite <- !Z.pow_add_r by lia. f_equal. lia. }
      pose proof (Z.div_mod rr S ltac:(lia)) as D. pose proof (Z.mod_pos_bound rr S PS) as M. rewrite <- Er in D.
      assert (PW : 0 < 2 ^ 48 * Q) by lia. set (W := 2 ^ 48 * Q) in *. rewrite E.
      split; [rewrite Er; apply Z.div_pos; lia|]. split; [|lia].
      replace (r * (S * W)) with (S * r * W) by ring. replace ((r + 1) * (S * W)) with ((S * r + S) * W) by ring. nia. }
  destruct RR as (R0 & (RA & RB) & RC). split; [exact R0|].
  assert (PT64 : 0 < T * 2 ^ 64) by lia. set (Z64 := T * 2 ^ 64) in *.
  (* upper *)
  assert (U : rr * (2 ^ 48 * Q) * (B * 2 ^ 31) <= A * 2 ^ 48 * (2 ^ 31 + 1) * Z64).
  { assert (U1 : rr * (2 ^ 48 * Q) * (B * 2 ^ 31) <= rr * (2 ^ 48 * Q) * (br * T * (2 ^ 31 + 1))).
    { apply Z.mul_le_mono_nonneg_l; [|exact HY2]. apply Z.mul_nonneg_nonneg; lia. }
    assert (U2 : rr * br * Q <= A * 2 ^ 64).
    { assert (rr * br * Q <= ar * Q) by (apply Z.mul_le_mono_nonneg_r; lia). lia. }
    assert (U3 : rr * br * Q * (2 ^ 48 * T * (2 ^ 31 + 1)) <= A * 2 ^ 64 * (2 ^ 48 * T * (2 ^ 31 + 1))).
    { apply Z.mul_le_mono_nonneg_r; [|exact U2]. lia. }
    unfold Z64. lia. }
  assert (PB : 0 < B * 2 ^ 31) by lia.
  split.
  { apply (Z.mul_le_mono_pos_r _ _ Z64 PT64).
    assert (r * Z64 * (B * 2 ^ 31) <= rr * (2 ^ 48 * Q) * (B * 2 ^ 31)) by (apply Z.mul_le_mono_nonneg_r; lia). lia. }
  split.
  { (* lower *)
    assert (L1 : ar * (2 ^ 31 - 1) <= rr * br * 2 ^ 31).
    { assert (br * 2 ^ 31 <= ar) by nia. nia. }
    assert (L2 : A * 2 ^ 64 * (2 ^ 63) <= ar * Q * (2 ^ 63 + 1)).
    { assert (Q * 2 ^ 63 <= ar * Q) by nia. nia. }
    assert (L3 : rr * (2 ^ 48 * Q) * (br * T) <= (r + 1) * Z64 * B).
    { assert (X1 : rr * (2 ^ 48 * Q) * (br * T) <= rr * (2 ^ 48 * Q) * B).
      { apply Z.mul_le_mono_nonneg_l; [apply Z.mul_nonneg_nonneg; lia|exact HY1]. }
      assert (X2 : rr * (2 ^ 48 * Q) * B <= (r + 1) * Z64 * B) by (apply Z.mul_le_mono_nonneg_r; lia). lia. }
    apply (Z.mul_le_mono_pos_r _ _ Z64 PT64).
    (* chain: A 2^64 (1-2^-30) T <= rr br Q T *)
    assert (L4 : A * 2 ^ 64 * (2 ^ 30 - 1) <= rr * br * Q * 2 ^ 30).
    { assert (Y1 : ar * Q * (2 ^ 31 - 1) <= rr * br * Q * 2 ^ 31).
      { replace (ar * Q * (2 ^ 31 - 1)) with (ar * (2 ^ 31 - 1) * Q) by ring.
        replace (rr * br * Q * 2 ^ 31) with (rr * br * 2 ^ 31 * Q) by ring. apply Z.mul_le_mono_nonneg_r; lia. }
      change (2 ^ 63) with 9223372036854775808 in L2. change (2 ^ 31) with 2147483648 in Y1. change (2 ^ 30) with 1073741824.
      change (2 ^ 64) with 18446744073709551616 in *. lia. }
    assert (L5 : A * 2 ^ 64 * (2 ^ 30 - 1) * (2 ^ 48 * T) <= rr * br * Q * 2 ^ 30 * (2 ^ 48 * T)).
    { apply Z.mul_le_mono_nonneg_r; [lia|exact L4]. }
    assert (L6 : rr * (2 ^ 48 * Q) * (br * T) * 2 ^ 30 <= (r + 1) * Z64 * B * 2 ^ 30) by (apply Z.mul_le_mono_nonneg_r; lia).
    unfold Z64 in *. lia. }
  split; [lia|]. split; [exact R1|].
  intros Hs. apply (Z.mul_le_mono_pos_r _ _ Z64 PT64). specialize (RC Hs).
  replace (rr * 2 ^ s * B * 2 ^ 31 * Z64) with (rr * 2 ^ s * Z64 * (B * 2 ^ 31)) by ring. rewrite RC. exact U.
Qed.
