(** I80F48 fixed point numbers (crate [fixed] 1.11, feature debug-assert-in-release:
    overflow panics in release builds, Cargo.toml of programs/mango-v4:35-39).

    A number is represented by its i128 bit pattern as an unbounded [Z]
    (value = bits / 2^48).  Overflow of the i128 range aborts the program, so
    executions of the code that succeed are exactly executions in which no
    operation left the range; the model leaves the range unbounded unless a
    definition says otherwise, and so has every successful execution of the code. *)
From Coq Require Import ZArith Lia Bool.
Open Scope Z_scope.

Definition fone : Z := 2 ^ 48.
Notation fx := Z (only parsing).
(** [I80F48::from_num(n)] for an integer *)
Definition of_int (n : Z) : fx := n * fone.
(** [a * b] rounds to minus infinity (i80f48.rs:139-146 [test_i80f48_mul_rounding]) *)
Definition fmul (a b : fx) : fx := a * b / fone.
(** [a / b] truncates toward zero (i80f48.rs:164-203 [test_i80f48_div]) *)
Definition fdiv (a b : fx) : fx := Z.quot (a * fone) b.
(** [to_num::<integer>()] floors *)
Definition to_int (a : fx) : Z := a / fone.
Definition ffloor (a : fx) : fx := a / fone * fone.
Definition fceil (a : fx) : fx := - (- a / fone) * fone.
(** ceil().to_num() *)
Definition ceil_int (a : fx) : Z := - (- a / fone).
(** round_to_zero().to_num() *)
Definition rtz_int (a : fx) : Z := Z.quot a fone.
Definition in_i128 (a : Z) : Prop := - 2 ^ 127 <= a < 2 ^ 127.

(** [I80F48::to_num::<f32>()] followed by [I80F48::from_num(f32)]: round to nearest,
    ties to even, at 24 significant bits.  Every I80F48 of at most 24 significant
    bits is exact as f32, and conversely the f32 result (a multiple of 2^-48 of
    magnitude at most 2^80) converts back exactly. *)
Definition f32_round (x : fx) : fx :=
  let a := Z.abs x in
  let e := Z.log2 a - 23 in
  if e <=? 0 then x
  else
    let u := 2 ^ e in
    let q := a / u in
    let r := a mod u in
    let q' := if (2 * r <? u) then q
              else if (u <? 2 * r) then q + 1
              else if Z.even q then q else q + 1 in
    Z.sgn x * (q' * u).

Lemma fone_pos : 0 < fone. Proof. reflexivity. Qed.
#[global] Hint Resolve fone_pos : core.

Lemma to_int_of_int n : to_int (of_int n) = n.
Proof. unfold to_int, of_int. apply Z.div_mul. pose proof fone_pos. lia. Qed.
Lemma fmul_int_l n b : fmul (of_int n) b = n * b.
Proof.
  unfold fmul, of_int. replace (n * fone * b) with (n * b * fone) by ring.
  apply Z.div_mul. pose proof fone_pos. lia.
Qed.
Lemma fmul_int_r a n : fmul a (of_int n) = a * n.
Proof. unfold fmul, of_int. rewrite Z.mul_assoc. apply Z.div_mul. pose proof fone_pos. lia. Qed.
Lemma of_int_add a b : of_int (a + b) = of_int a + of_int b.
Proof. unfold of_int. ring. Qed.
Lemma of_int_opp a : of_int (- a) = - of_int a.
Proof. unfold of_int. ring. Qed.
Lemma of_int_sub a b : of_int (a - b) = of_int a - of_int b.
Proof. unfold of_int. ring. Qed.
Lemma of_int_inj a b : of_int a = of_int b -> a = b.
Proof. unfold of_int. pose proof fone_pos. nia. Qed.
Lemma of_int_le a b : of_int a <= of_int b <-> a <= b.
Proof. unfold of_int. pose proof fone_pos. nia. Qed.
Lemma of_int_lt a b : of_int a < of_int b <-> a < b.
Proof. unfold of_int. pose proof fone_pos. nia. Qed.

(** error bounds *)
Lemma fmul_bounds a b : fmul a b * fone <= a * b < fmul a b * fone + fone.
Proof.
  unfold fmul. pose proof fone_pos. pose proof (Z.div_mod (a * b) fone). pose proof (Z.mod_pos_bound (a * b) fone).
  lia.
Qed.
Lemma to_int_bounds a : of_int (to_int a) <= a < of_int (to_int a + 1).
Proof.
  unfold of_int, to_int. pose proof fone_pos. pose proof (Z.div_mod a fone). pose proof (Z.mod_pos_bound a fone).
  lia.
Qed.
Lemma ceil_int_bounds a : of_int (ceil_int a - 1) < a <= of_int (ceil_int a).
Proof.
  unfold of_int, ceil_int. pose proof fone_pos. pose proof (Z.div_mod (- a) fone). pose proof (Z.mod_pos_bound (- a) fone).
  lia.
Qed.
Lemma fmul_nonneg a b : 0 <= a -> 0 <= b -> 0 <= fmul a b.
Proof. intros. unfold fmul. apply Z.div_pos; [nia|reflexivity]. Qed.
Lemma fmul_mono_l a a' b : 0 <= b -> a <= a' -> fmul a b <= fmul a' b.
Proof. intros. unfold fmul. apply Z.div_le_mono; [reflexivity|nia]. Qed.
Lemma fmul_mono_r a b b' : 0 <= a -> b <= b' -> fmul a b <= fmul a b'.
Proof. intros. unfold fmul. apply Z.div_le_mono; [reflexivity|nia]. Qed.
Lemma fmul_comm a b : fmul a b = fmul b a.
Proof. unfold fmul. f_equal. ring. Qed.
Lemma fmul_0_l b : fmul 0 b = 0. Proof. reflexivity. Qed.
Lemma fmul_0_r a : fmul a 0 = 0. Proof. unfold fmul. rewrite Z.mul_0_r. reflexivity. Qed.
Lemma fmul_one_r a : fmul a fone = a.
Proof. unfold fmul. apply Z.div_mul. pose proof fone_pos; lia. Qed.

Lemma fdiv_pos_bounds a b : 0 <= a -> 0 < b -> fdiv a b * b <= a * fone < fdiv a b * b + b.
Proof.
  intros Ha Hb. unfold fdiv. pose proof fone_pos.
  pose proof (Z.quot_rem' (a * fone) b). pose proof (Z.rem_bound_pos (a * fone) b). nia.
Qed.
Lemma fdiv_opp_l a b : fdiv (- a) b = - fdiv a b.
Proof.
  unfold fdiv. destruct (Z.eq_dec b 0) as [->|]; [rewrite !Z.quot_0_r_ext; reflexivity|].
  replace (- a * fone) with (- (a * fone)) by ring. apply Z.quot_opp_l. assumption.
Qed.
Lemma fdiv_nonneg a b : 0 <= a -> 0 < b -> 0 <= fdiv a b.
Proof. intros. unfold fdiv. apply Z.quot_pos; pose proof fone_pos; nia. Qed.
Lemma fdiv_mono a a' b : 0 < b -> a <= a' -> fdiv a b <= fdiv a' b.
Proof. intros. unfold fdiv. apply Z.quot_le_mono; pose proof fone_pos; nia. Qed.
Lemma fdiv_of_int a n : n <> 0 -> fdiv (a * n) (of_int n) = a.
Proof.
  intros. unfold fdiv, of_int. pose proof fone_pos.
  replace (a * n * fone) with (a * (n * fone)) by ring. apply Z.quot_mul. nia.
Qed.
