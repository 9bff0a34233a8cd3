(** The double precision division is accurate. *)
From Coq Require Import ZArith Lia Bool.
From Verif Require Import Fixed Health HealthDiv.
Open Scope Z_scope.

Lemma f64_round_close x : 0 < x -> 2 ^ 53 * Z.abs (f64_round x - x) <= x.
Proof.
  intros H. rewrite f64_round_pos by assumption. cbv zeta. destruct (Z.leb_spec (Z.log2 x - 52) 0) as [L|L].
  - rewrite Z.sub_diag. change (Z.abs 0) with 0. lia.
  - pose proof (Z.log2_spec x H) as [L1 _]. set (e := Z.log2 x - 52) in *.
    assert (P : 0 < 2 ^ e) by (apply pow_pos; lia).
    assert (E1 : 2 ^ Z.log2 x = 2 ^ 52 * 2 ^ e) by (rewrite <- Z.pow_add_r by lia; f_equal; lia).
    destruct (rne_spec x (2 ^ e) P) as ((A1 & A2) & _). set (q := rne x (2 ^ e)) in *. clearbody q.
    rewrite E1 in L1. set (d := 2 ^ e) in *. clearbody d e. assert (Z.abs (q * d - x) * 2 <= d) by lia.
    change (2 ^ 53) with (2 ^ 52 * 2). set (k := 2 ^ 52) in *. assert (0 < k) by reflexivity. clearbody k. nia.
Qed.
Lemma qval_close a b : 0 < a -> 0 < b -> 2 ^ 53 * Z.abs (qval a b * b - a * fone) <= 2 ^ 52 * b + a * fone.
Proof.
  intros Ha Hb. set (K := Z.abs (qexp a b) + 100).
  assert (S1 : snd (f64_quot a b) = 52 - qexp a b) by reflexivity.
  rewrite (qval_rne a b K) by (rewrite ?S1; unfold K; lia). rewrite S1.
  rewrite (quot_as_rne a b K) by (unfold K; lia).
  pose proof (qexp_spec a b K Ha Hb) as Q. cbv zeta in Q. specialize (Q ltac:(unfold K; lia) ltac:(unfold K; lia)). destruct Q as [Q _].
  set (E := qexp a b) in *.
  assert (P1 : 0 < 2 ^ (K - (52 - E))) by (apply pow_pos; unfold K; lia). assert (P2 : 0 < 2 ^ (K - 48)) by (apply pow_pos; unfold K; lia).
  assert (EQ : 2 ^ (K + E) = 2 ^ 52 * 2 ^ (K - (52 - E))) by (rewrite <- Z.pow_add_r by (unfold K; lia); f_equal; lia).
  assert (EK : 2 ^ K = fone * 2 ^ (K - 48)) by (unfold fone; rewrite <- Z.pow_add_r by (unfold K; lia); f_equal; lia).
  rewrite EQ, EK in Q. rewrite EK. set (p := 2 ^ (K - (52 - E))) in *. set (P := 2 ^ (K - 48)) in *. clearbody p P. clear EQ EK S1 E K.
  destruct (rne_spec (a * (fone * P)) (b * p) ltac:(nia)) as ((A1 & A2) & _). set (m := rne _ (b * p)) in *. clearbody m.
  destruct (rne_spec (m * p) P P2) as ((B1 & B2) & _). set (r := rne (m * p) P) in *. clearbody r.
  apply (Z.mul_le_mono_pos_r _ _ P P2).
  assert (C1 : 2 * Z.abs (m * (b * p) - a * (fone * P)) <= b * p) by lia.
  assert (C2 : 2 * Z.abs (r * P - m * p) <= P) by lia.
  assert (C3 : 2 * Z.abs (r * b * P - m * (b * p)) <= b * P).
  { replace (r * b * P - m * (b * p)) with (b * (r * P - m * p)) by ring. rewrite Z.abs_mul, (Z.abs_eq b) by lia. nia. }
  assert (C4 : 2 ^ 53 * Z.abs (m * (b * p) - a * (fone * P)) <= a * (fone * P)).
  { change (2 ^ 53) with (2 ^ 52 * 2). set (k := 2 ^ 52) in *. assert (0 < k) by reflexivity. clearbody k. nia. }
  assert (C5 : Z.abs (r * b - a * fone) * P = Z.abs ((r * b * P - m * (b * p)) + (m * (b * p) - a * (fone * P)))).
  { rewrite <- (Z.abs_eq P) at 1 by lia. rewrite <- Z.abs_mul. f_equal. ring. }
  pose proof (Z.abs_triangle (r * b * P - m * (b * p)) (m * (b * p) - a * (fone * P))) as T. rewrite <- C5 in T.
  rewrite <- Z.mul_assoc.
  set (t := Z.abs (r * b - a * fone) * P) in *. set (u := Z.abs (r * b * P - _)) in *. set (v := Z.abs (m * (b * p) - _)) in *. clearbody t u v.
  replace ((2 ^ 52 * b + a * fone) * P) with (2 ^ 52 * (b * P) + a * (fone * P)) by ring.
  set (bp := b * P) in *. set (af := a * (fone * P)) in *. clearbody bp af. clear - T C3 C4.
  change (2 ^ 53) with 9007199254740992 in *. change (2 ^ 52) with 4503599627370496 in *. lia.
Qed.

(** the quotient of two fixed point numbers through doubles is within 2^-51 of its size, and one unit in the last
    place, of the exact quotient *)
Lemma div_f64_close a b r : 0 <= a -> 0 < b -> div_f64 a b = Some r ->
  2 ^ 51 * Z.abs (r * b - a * fone) <= a * fone + 2 ^ 51 * b.
Proof.
  intros Ha Hb H. pose proof (div_f64_nonneg a b r Ha Hb H) as R0. pose proof fone_pos as FP. unfold div_f64 in H. destruct (Z.eqb_spec b 0); [lia|]. cbv zeta in H.
  destruct (Z.eq_dec a 0) as [->|Na].
  { change (f64_round 0) with 0 in H. change (0 =? 0) with true in H. cbv iota in H. assert (E0 : r = 0) by congruence. subst r.
    rewrite !Z.mul_0_l. change (Z.abs (0 - 0)) with 0. lia. }
  assert (Ha' : 0 < a) by lia. pose proof (f64_round_close a Ha') as CA. pose proof (f64_round_close b Hb) as CB.
  pose proof (f64_round_positive a Ha') as PA. pose proof (f64_round_positive b Hb) as PB.
  set (x := f64_round a) in *. set (y := f64_round b) in *. clearbody x y.
  destruct (Z.eqb_spec x 0); [lia|]. rewrite (Z.abs_eq x), (Z.abs_eq y), (Z.sgn_pos x), (Z.sgn_pos y) in H by lia.
  assert (r = qval x y). { unfold qval. destruct (f64_quot x y) as [m s]. rewrite ?Z.mul_1_l in H. destruct (_ && _); [congruence|discriminate]. }
  pose proof (qval_close x y PA PB) as Q. rewrite <- H0 in Q. clear H H0.
  set (N := 2 ^ 53) in *. assert (HN : N = 9007199254740992) by reflexivity. change (2 ^ 52) with 4503599627370496 in Q. change (2 ^ 51) with 2251799813685248.
  clearbody N. rewrite HN in *. clear HN N.
  assert (F1 : r * (9007199254740991 * b) <= r * (9007199254740992 * y)) by (apply Z.mul_le_mono_nonneg_l; lia).
  assert (F2 : r * (9007199254740992 * y) <= r * (9007199254740993 * b)) by (apply Z.mul_le_mono_nonneg_l; lia).
  assert (F3 : fone * (9007199254740991 * a) <= fone * (9007199254740992 * x)) by (apply Z.mul_le_mono_nonneg_l; lia).
  assert (F4 : fone * (9007199254740992 * x) <= fone * (9007199254740993 * a)) by (apply Z.mul_le_mono_nonneg_l; lia).
  replace (x * fone) with (fone * x) in Q by ring. replace (a * fone) with (fone * a) by ring.
  assert (F5 : r * (9007199254740991 * b) = 9007199254740991 * (r * b)) by ring.
  assert (F6 : r * (9007199254740993 * b) = 9007199254740993 * (r * b)) by ring.
  assert (F7 : r * (9007199254740992 * y) = 9007199254740992 * (r * y)) by ring.
  assert (F8 : fone * (9007199254740991 * a) = 9007199254740991 * (fone * a)) by ring.
  assert (F9 : fone * (9007199254740993 * a) = 9007199254740993 * (fone * a)) by ring.
  assert (F10 : fone * (9007199254740992 * x) = 9007199254740992 * (fone * x)) by ring.
  assert (NA : 0 <= fone * a) by nia.
  rewrite F5, F6, F7, F8, F9, F10 in *. clear F5 F6 F7 F8 F9 F10.
  set (rb := r * b) in *. set (ry := r * y) in *. set (fa := fone * a) in *. set (fxx := fone * x) in *. clearbody rb ry fa fxx.
  clear - Q F1 F2 F3 F4 NA CB Hb. lia.
Qed.
