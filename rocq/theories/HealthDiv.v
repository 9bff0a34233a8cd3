(** The double precision division is monotone. *)
From Coq Require Import ZArith Lia Bool.
From Verif Require Import Fixed Health.
Open Scope Z_scope.

Lemma rne_spec n d : 0 < d -> let q := rne n d in
  (2 * q - 1) * d <= 2 * n <= (2 * q + 1) * d /\
  (2 * n = (2 * q - 1) * d -> Z.even q = true) /\ (2 * n = (2 * q + 1) * d -> Z.even q = true).
Proof.
  intros Hd q. unfold q, rne. pose proof (Z.div_mod n d ltac:(lia)) as D. pose proof (Z.mod_pos_bound n d Hd) as M.
  set (k := n / d) in *. set (r := n mod d) in *. clearbody k r. destruct (Z.ltb_spec (2 * r) d); [|destruct (Z.ltb_spec d (2 * r))].
  - split; [|split; intros]; nia.
  - split; [|split; intros]; nia.
  - destruct (Z.even k) eqn:Ev; (split; [nia|]); split; intros; first [assumption | rewrite Z.add_1_r, Z.even_succ, <- Z.negb_even, Ev; reflexivity | nia].
Qed.
Lemma rne_mono n d n' d' : 0 < d -> 0 < d' -> n * d' <= n' * d -> rne n d <= rne n' d'.
Proof.
  intros Hd Hd' H. destruct (rne_spec n d Hd) as ((A1 & A2) & A3 & A4). destruct (rne_spec n' d' Hd') as ((B1 & B2) & B3 & B4).
  set (q := rne n d) in *. set (q' := rne n' d') in *. clearbody q q'. destruct (Z.le_gt_cases q q') as [|C]; [assumption|exfalso].
  assert (E1 : (2 * q - 1) * d * d' <= 2 * n * d') by (apply Z.mul_le_mono_nonneg_r; lia).
  assert (E2 : 2 * n' * d <= (2 * q' + 1) * d' * d) by (apply Z.mul_le_mono_nonneg_r; lia).
  assert (E3 : (2 * q' + 1) * (d * d') <= (2 * q - 1) * (d * d')) by (apply Z.mul_le_mono_nonneg_r; nia).
  assert (X : (2 * q' + 1) * (d * d') = (2 * q - 1) * (d * d')) by lia.
  apply Z.mul_cancel_r in X; [|nia]. assert (Q : q = q' + 1) by lia.
  assert (T1 : 2 * n = (2 * q - 1) * d).
  { apply (Z.mul_cancel_r _ _ d'); lia. }
  assert (T2 : 2 * n' = (2 * q' + 1) * d').
  { apply (Z.mul_cancel_r _ _ d); lia. }
  specialize (A3 T1). specialize (B4 T2). rewrite Q, Z.add_1_r, Z.even_succ, <- Z.negb_even, B4 in A3. discriminate.
Qed.
Lemma rne_int k d : 0 < d -> rne (k * d) d = k.
Proof.
  intros Hd. unfold rne. rewrite Z.div_mul, Z.mod_mul by lia. destruct (Z.ltb_spec (2 * 0) d); [reflexivity|lia].
Qed.
Lemma rne_between lo hi n d : 0 < d -> lo * d <= n <= hi * d -> lo <= rne n d <= hi.
Proof.
  intros Hd [H1 H2]. split; [rewrite <- (rne_int lo d Hd)|rewrite <- (rne_int hi d Hd)]; apply rne_mono; nia.
Qed.
Lemma rne_nonneg n d : 0 < d -> 0 <= n -> 0 <= rne n d.
Proof. intros Hd H. rewrite <- (rne_int 0 d Hd). apply rne_mono; nia. Qed.

Lemma pow_pos k : 0 <= k -> 0 < 2 ^ k. Proof. intros. apply Z.pow_pos_nonneg; lia. Qed.

(** rounding to 53 bits *)
Lemma f64_round_pos x : 0 < x -> f64_round x = let e := Z.log2 x - 52 in if e <=? 0 then x else rne x (2 ^ e) * 2 ^ e.
Proof. intros H. unfold f64_round. rewrite Z.abs_eq by lia. rewrite Z.sgn_pos by lia. cbv zeta. destruct (_ <=? 0); lia. Qed.
Lemma f64_round_bounds x : 0 < x -> 2 ^ Z.log2 x <= f64_round x <= 2 ^ (Z.log2 x + 1).
Proof.
  intros H. rewrite f64_round_pos by assumption. cbv zeta. pose proof (Z.log2_spec x H) as [L1 L2]. rewrite <- Z.add_1_r in L2. pose proof (Z.log2_nonneg x).
  destruct (Z.leb_spec (Z.log2 x - 52) 0); [lia|]. set (e := Z.log2 x - 52) in *. assert (P : 0 < 2 ^ e) by (apply pow_pos; lia).
  assert (E1 : 2 ^ Z.log2 x = 2 ^ 52 * 2 ^ e) by (rewrite <- Z.pow_add_r by lia; f_equal; lia).
  assert (E2 : 2 ^ (Z.log2 x + 1) = 2 ^ 53 * 2 ^ e) by (rewrite <- Z.pow_add_r by lia; f_equal; lia).
  pose proof (rne_between (2 ^ 52) (2 ^ 53) x (2 ^ e) P). nia.
Qed.
Lemma f64_round_mono x y : 0 <= x <= y -> 0 <= f64_round x <= f64_round y.
Proof.
  intros [H0 H]. assert (N : 0 <= f64_round x).
  { destruct (Z.eq_dec x 0) as [->|]; [vm_compute; discriminate|]. pose proof (f64_round_bounds x). pose proof (Z.log2_nonneg x).
    assert (0 < 2 ^ Z.log2 x) by (apply pow_pos; lia). lia. }
  split; [exact N|]. destruct (Z.eq_dec x 0) as [->|].
  { change (f64_round 0) with 0. destruct (Z.eq_dec y 0) as [->|]; [reflexivity|]. pose proof (f64_round_bounds y). pose proof (Z.log2_nonneg y).
    assert (0 < 2 ^ Z.log2 y) by (apply pow_pos; lia). lia. }
  assert (Hx : 0 < x) by lia. assert (Hy : 0 < y) by lia. pose proof (Z.log2_le_mono x y H) as HL.
  destruct (Z.eq_dec (Z.log2 x) (Z.log2 y)) as [E|].
  - rewrite !f64_round_pos by assumption. cbv zeta. rewrite <- E. destruct (Z.leb_spec (Z.log2 x - 52) 0); [lia|].
    assert (P : 0 < 2 ^ (Z.log2 x - 52)) by (apply pow_pos; lia). apply Z.mul_le_mono_nonneg_r; [lia|]. apply rne_mono; nia.
  - pose proof (f64_round_bounds x Hx). pose proof (f64_round_bounds y Hy).
    assert (2 ^ (Z.log2 x + 1) <= 2 ^ Z.log2 y) by (apply Z.pow_le_mono_r; lia). lia.
Qed.
Lemma f64_round_positive x : 0 < x -> 0 < f64_round x.
Proof. intros H. pose proof (f64_round_bounds x H). assert (0 < 2 ^ Z.log2 x) by (apply pow_pos, Z.log2_nonneg). lia. Qed.

(** The quotient: [fst] * 2^-[snd] is a/b rounded to 53 bits.  To compare without
    fractions everything is scaled by 2^K for K large. *)
Definition qexp (a b : Z) : Z :=
  let e := Z.log2 a - Z.log2 b in if (if 0 <=? e then b * 2 ^ e <=? a else b <=? a * 2 ^ (- e)) then e else e - 1.
(** 2^E <= a/b < 2^(E+1), with K + E >= 0 *)
Lemma qexp_spec a b K : 0 < a -> 0 < b -> let E := qexp a b in 0 <= K -> 0 <= K + E -> b * 2 ^ (K + E) <= a * 2 ^ K < b * 2 ^ (K + E + 1).
Proof.
  intros Ha Hb E HK HE. unfold E in *. clear E. unfold qexp in *. cbv zeta in *. set (e := Z.log2 a - Z.log2 b) in *.
  pose proof (Z.log2_spec a Ha) as [A1 A2]. pose proof (Z.log2_spec b Hb) as [B1 B2]. rewrite <- Z.add_1_r in A2, B2.
  pose proof (Z.log2_nonneg a). pose proof (Z.log2_nonneg b).
  (* a < b * 2^(e+1), b * 2^(e-1) < a in scaled form *)
  assert (U : forall k, 0 <= k -> 0 <= k + e + 1 -> a * 2 ^ k < b * 2 ^ (k + e + 1)).
  { intros k K0 K1. apply Z.lt_le_trans with (2 ^ (Z.log2 a + 1) * 2 ^ k); [apply Z.mul_lt_mono_pos_r; [apply pow_pos; lia|lia]|].
    apply Z.le_trans with (2 ^ Z.log2 b * 2 ^ (k + e + 1)); [|apply Z.mul_le_mono_nonneg_r; [apply Z.pow_nonneg; lia|lia]].
    rewrite <- !Z.pow_add_r by lia. apply Z.pow_le_mono_r; unfold e; lia. }
  assert (W : forall k, 0 <= k -> 0 <= k + e - 1 -> b * 2 ^ (k + e - 1) < a * 2 ^ k).
  { intros k K0 K1. apply Z.lt_le_trans with (2 ^ (Z.log2 b + 1) * 2 ^ (k + e - 1)); [apply Z.mul_lt_mono_pos_r; [apply pow_pos; lia|lia]|].
    apply Z.le_trans with (2 ^ Z.log2 a * 2 ^ k); [|apply Z.mul_le_mono_nonneg_r; [apply Z.pow_nonneg; lia|lia]].
    rewrite <- !Z.pow_add_r by lia. apply Z.pow_le_mono_r; unfold e; lia. }
  (* the test *)
  set (T := if 0 <=? e then b * 2 ^ e <=? a else b <=? a * 2 ^ (- e)) in *.
  assert (HT : forall k, 0 <= k -> 0 <= k + e -> if T then b * 2 ^ (k + e) <= a * 2 ^ k else a * 2 ^ k < b * 2 ^ (k + e)).
  { intros k K0 K1. unfold T. destruct (Z.leb_spec 0 e).
    - rewrite Z.pow_add_r by lia. assert (0 < 2 ^ k) by (apply pow_pos; lia). destruct (Z.leb_spec (b * 2 ^ e) a).
      + replace (b * (2 ^ k * 2 ^ e)) with (b * 2 ^ e * 2 ^ k) by ring. apply Z.mul_le_mono_nonneg_r; lia.
      + replace (b * (2 ^ k * 2 ^ e)) with (b * 2 ^ e * 2 ^ k) by ring. apply Z.mul_lt_mono_pos_r; lia.
    - assert (E : 2 ^ k = 2 ^ (- e) * 2 ^ (k + e)) by (rewrite <- Z.pow_add_r by lia; f_equal; lia).
      assert (0 < 2 ^ (k + e)) by (apply pow_pos; lia). destruct (Z.leb_spec b (a * 2 ^ (- e))).
      + rewrite E, Z.mul_assoc. apply Z.mul_le_mono_nonneg_r; lia.
      + rewrite E, Z.mul_assoc. apply Z.mul_lt_mono_pos_r; lia. }
  destruct T.
  - split; [apply (HT K); lia|apply U; lia].
  - split; [|]. 
    + replace (K + (e - 1)) with (K + e - 1) by lia. apply Z.lt_le_incl, W; lia.
    + replace (K + (e - 1) + 1) with (K + e) by lia. apply (HT K); lia.
Qed.
Lemma f64_quot_eq a b : f64_quot a b =
  let s := 52 - qexp a b in (if 0 <=? s then rne (a * 2 ^ s) b else rne a (b * 2 ^ (- s)), s).
Proof. reflexivity. Qed.
(** scaling both arguments *)
Lemma rne_scale n d k : 0 < d -> 0 < k -> rne (n * k) (d * k) = rne n d.
Proof. intros Hd Hk. apply Z.le_antisymm; apply rne_mono; nia. Qed.
Lemma quot_as_rne a b K : 0 < a -> 0 < b -> 0 <= K -> 0 <= K - (52 - qexp a b) ->
  fst (f64_quot a b) = rne (a * 2 ^ K) (b * 2 ^ (K - (52 - qexp a b))).
Proof.
  intros Ha Hb HK H. rewrite f64_quot_eq. cbv zeta. cbn [fst]. set (s := 52 - qexp a b) in *. destruct (Z.leb_spec 0 s).
  - rewrite <- (rne_scale (a * 2 ^ s) b (2 ^ (K - s))) by (try apply pow_pos; lia). f_equal. rewrite <- Z.mul_assoc, <- Z.pow_add_r by lia. do 2 f_equal. lia.
  - rewrite <- (rne_scale a (b * 2 ^ (- s)) (2 ^ K)) by (try apply Z.mul_pos_pos; try apply pow_pos; lia). f_equal.
    rewrite <- Z.mul_assoc, <- Z.pow_add_r by lia. do 2 f_equal. lia.
Qed.
Lemma quot_range a b : 0 < a -> 0 < b -> 2 ^ 52 <= fst (f64_quot a b) <= 2 ^ 53.
Proof.
  intros Ha Hb. set (K := Z.abs (qexp a b) + 52). rewrite (quot_as_rne a b K) by (unfold K; lia).
  pose proof (qexp_spec a b K Ha Hb) as Q. cbv zeta in Q. specialize (Q ltac:(unfold K; lia) ltac:(unfold K; lia)).
  set (E := qexp a b) in *. assert (P : 0 < 2 ^ (K - (52 - E))) by (apply pow_pos; unfold K; lia).
  apply rne_between; [nia|].
  assert (E1 : 2 ^ (K + E) = 2 ^ 52 * 2 ^ (K - (52 - E))) by (rewrite <- Z.pow_add_r by (unfold K; lia); f_equal; lia).
  assert (E2 : 2 ^ (K + E + 1) = 2 ^ 53 * 2 ^ (K - (52 - E))) by (rewrite <- Z.pow_add_r by (unfold K; lia); f_equal; lia).
  rewrite E1, E2 in Q. lia.
Qed.
Lemma qexp_mono a b a' b' : 0 < a -> 0 < b -> 0 < a' -> 0 < b' -> a * b' <= a' * b -> qexp a b <= qexp a' b'.
Proof.
  intros Ha Hb Ha' Hb' H. destruct (Z.le_gt_cases (qexp a b) (qexp a' b')) as [|C]; [assumption|exfalso].
  set (K := Z.abs (qexp a b) + Z.abs (qexp a' b')). pose proof (qexp_spec a b K Ha Hb) as Q. pose proof (qexp_spec a' b' K Ha' Hb') as Q'. cbv zeta in Q, Q'.
  specialize (Q ltac:(unfold K; lia) ltac:(unfold K; lia)). specialize (Q' ltac:(unfold K; lia) ltac:(unfold K; lia)).
  set (E := qexp a b) in *. set (E' := qexp a' b') in *.
  assert (P : 2 ^ (K + E' + 1) <= 2 ^ (K + E)) by (apply Z.pow_le_mono_r; lia).
  set (pK := 2 ^ K) in *. set (p1 := 2 ^ (K + E)) in *. set (p2 := 2 ^ (K + E' + 1)) in *.
  assert (P0 : 0 < pK) by (apply pow_pos; unfold K; lia). assert (P1 : 0 < p1) by (apply pow_pos; unfold K; lia).
  assert (X1 : b * p1 * b' <= a * pK * b') by (apply Z.mul_le_mono_nonneg_r; lia).
  assert (X2 : a' * pK * b < b' * p2 * b) by (apply Z.mul_lt_mono_pos_r; lia).
  assert (X3 : a * b' * pK <= a' * b * pK) by (apply Z.mul_le_mono_nonneg_r; lia).
  assert (X4 : b * b' * p2 <= b * b' * p1) by (apply Z.mul_le_mono_nonneg_l; nia). lia.
Qed.
(** the I80F48 nearest to the double quotient *)
Definition qval (a b : Z) : Z :=
  let '(m, s) := f64_quot a b in if s <=? 48 then m * 2 ^ (48 - s) else rne m (2 ^ (s - 48)).
Lemma qval_rne a b K : 0 <= K -> 0 <= K - snd (f64_quot a b) -> 0 <= K - 48 ->
  qval a b = rne (fst (f64_quot a b) * 2 ^ (K - snd (f64_quot a b))) (2 ^ (K - 48)).
Proof.
  unfold qval. destruct (f64_quot a b) as [m s]. cbn [fst snd]. intros H0 H1 H2. destruct (Z.leb_spec s 48).
  - replace (m * 2 ^ (K - s)) with (m * 2 ^ (48 - s) * 2 ^ (K - 48)).
    + symmetry. apply rne_int, pow_pos. lia.
    + rewrite <- Z.mul_assoc, <- Z.pow_add_r by lia. do 2 f_equal. lia.
  - replace (2 ^ (K - 48)) with (2 ^ (s - 48) * 2 ^ (K - s)) by (rewrite <- Z.pow_add_r by lia; f_equal; lia).
    symmetry. apply rne_scale; apply pow_pos; lia.
Qed.
Lemma qval_mono a b a' b' : 0 < a -> 0 < b -> 0 < a' -> 0 < b' -> a * b' <= a' * b -> 0 <= qval a b <= qval a' b'.
Proof.
  intros Ha Hb Ha' Hb' H. pose proof (qexp_mono a b a' b' Ha Hb Ha' Hb' H) as HE.
  set (K := Z.abs (qexp a b) + Z.abs (qexp a' b') + 100).
  assert (S1 : snd (f64_quot a b) = 52 - qexp a b) by reflexivity. assert (S2 : snd (f64_quot a' b') = 52 - qexp a' b') by reflexivity.
  rewrite (qval_rne a b K), (qval_rne a' b' K) by (rewrite ?S1, ?S2; unfold K; lia). rewrite S1, S2.
  pose proof (quot_range a b Ha Hb) as R. pose proof (quot_range a' b' Ha' Hb') as R'.
  assert (P : 0 < 2 ^ (K - 48)) by (apply pow_pos; unfold K; lia).
  set (E := qexp a b) in *. set (E' := qexp a' b') in *.
  assert (P1 : 0 < 2 ^ (K - (52 - E))) by (apply pow_pos; unfold K; lia).
  split; [apply rne_nonneg; [lia|]; assert (0 < 2 ^ 52) by reflexivity; nia|].
  apply rne_mono; [lia|lia|]. apply Z.mul_le_mono_nonneg_r; [lia|].
  destruct (Z.eq_dec E E') as [EE|NE].
  - rewrite <- EE. apply Z.mul_le_mono_nonneg_r; [lia|].
    rewrite (quot_as_rne a b K), (quot_as_rne a' b' K) by (fold E; fold E'; unfold K; lia). fold E. fold E'. rewrite <- EE.
    apply rne_mono; [nia|nia|]. set (p := 2 ^ (K - (52 - E))) in *. assert (0 < 2 ^ K) by (apply pow_pos; unfold K; lia).
    assert (X : a * b' * (2 ^ K * p) <= a' * b * (2 ^ K * p)) by (apply Z.mul_le_mono_nonneg_r; nia). nia.
  - assert (X : 2 * 2 ^ (K - (52 - E)) <= 2 ^ (K - (52 - E'))).
    { rewrite <- Z.pow_succ_r by (unfold K; lia). apply Z.pow_le_mono_r; lia. }
    set (p := 2 ^ (K - (52 - E))) in *. set (p' := 2 ^ (K - (52 - E'))) in *.
    apply Z.le_trans with (2 ^ 53 * p); [apply Z.mul_le_mono_nonneg_r; lia|]. change (2 ^ 53) with (2 ^ 52 * 2).
    apply Z.le_trans with (2 ^ 52 * p'); [nia|]. apply Z.mul_le_mono_nonneg_r; nia.
Qed.
Lemma div_f64_mono a b a' b' r r' : 0 <= a <= a' -> 0 < b' <= b -> div_f64 a b = Some r -> div_f64 a' b' = Some r' -> 0 <= r <= r'.
Proof.
  intros HA HB. unfold div_f64. destruct (Z.eqb_spec b 0); [lia|]. destruct (Z.eqb_spec b' 0); [lia|]. cbv zeta.
  pose proof (f64_round_mono a a' HA) as RA. pose proof (f64_round_mono b' b ltac:(lia)) as RB.
  pose proof (f64_round_positive b ltac:(lia)) as B1. pose proof (f64_round_positive b' ltac:(lia)) as B2.
  set (x := f64_round a) in *. set (x' := f64_round a') in *. set (y := f64_round b) in *. set (y' := f64_round b') in *. clearbody x x' y y'.
  assert (V : forall u v r, 0 < u -> 0 < v -> (let '(m, s) := f64_quot (Z.abs u) (Z.abs v) in
      let r := Z.sgn u * Z.sgn v * (if s <=? 48 then m * 2 ^ (48 - s) else rne m (2 ^ (s - 48))) in
      if (- 2 ^ 127 <=? r) && (r <? 2 ^ 127) then Some r else None) = Some r -> r = qval u v).
  { intros u v r0 U V. unfold qval. rewrite !Z.abs_eq, !Z.sgn_pos by lia. destruct (f64_quot u v) as [m s]. cbv zeta. rewrite !Z.mul_1_l.
    destruct (_ && _); [|discriminate]. congruence. }
  destruct (Z.eqb_spec x 0) as [->|]; destruct (Z.eqb_spec x' 0) as [->|]; intros H H'.
  - injection H as <-. injection H' as <-. lia.
  - injection H as <-. apply V in H'; [|lia|lia]. subst r'. split; [lia|]. apply (qval_mono x' y' x' y'); lia.
  - lia.
  - apply V in H; [|lia|lia]. apply V in H'; [|lia|lia]. subst r r'. apply qval_mono; try lia. nia.
Qed.
Lemma div_f64_nonneg a b r : 0 <= a -> 0 < b -> div_f64 a b = Some r -> 0 <= r.
Proof. intros Ha Hb H. apply (div_f64_mono a b a b r r); try lia; assumption. Qed.
