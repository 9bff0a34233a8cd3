(** Facts about the scaled init weights. *)
From Coq Require Import List ZArith Lia Bool.
From Verif Require Import Interest Bank BankFacts Health HealthSpec HealthDiv HealthFacts Scaling Fixed.
Import ListNotations.
Open Scope Z_scope.

Lemma f64_round_err x : 0 <= x -> - x <= (f64_round x - x) * 2 ^ 53 <= x.
Proof.
  intros H. destruct (Z.eq_dec x 0) as [->|N]; [vm_compute; split; discriminate|]. assert (P : 0 < x) by lia.
  rewrite f64_round_pos by exact P. cbv zeta. destruct (Z.leb_spec (Z.log2 x - 52) 0) as [L|L]; [lia|].
  set (e := Z.log2 x - 52) in *. assert (Pe : 0 < 2 ^ e) by (apply pow_pos; lia).
  pose proof (rne_spec x (2 ^ e) Pe) as (R & _). cbv zeta in R. set (q := rne x (2 ^ e)) in *.
  pose proof (Z.log2_spec x P) as [L1 _]. assert (E : 2 ^ Z.log2 x = 2 ^ 52 * 2 ^ e) by (rewrite <- Z.pow_add_r by lia; f_equal; unfold e; lia).
  rewrite E in L1. change (2 ^ 53) with (2 * 2 ^ 52). clearbody q. revert R L1 Pe. assert (K0 : 0 <= 2 ^ 52) by discriminate. revert K0. generalize (2 ^ e) (2 ^ 52). clear. intros E K K0 R L P.
  set (d := 2 * (q * E - x)). assert (D : - E <= d <= E) by (unfold d; lia). replace ((q * E - x) * (2 * K)) with (K * d) by (unfold d; ring). clearbody d.
  split; nia.
Qed.

Lemma qval_self a : 0 < a -> qval a a = fone.
Proof.
  intros H. unfold qval. rewrite f64_quot_eq. assert (Q : qexp a a = 0).
  { unfold qexp. rewrite Z.sub_diag. change (0 <=? 0) with true. cbn [Z.pow]. rewrite Z.mul_1_r, Z.leb_refl. reflexivity. }
  rewrite Q. cbv zeta. change (52 - 0) with 52. change (0 <=? 52) with true. cbn iota. rewrite (Z.mul_comm a), rne_int by exact H. vm_compute. reflexivity.
Qed.
Lemma quot_fx_eq a b r : 0 < a -> quot_fx a b = Some r -> r = qval a b.
Proof.
  intros P. unfold quot_fx, qval. destruct (Z.eqb_spec a 0); [lia|]. destruct (f64_quot a b) as [m s]. destruct (_ <? _); [|discriminate]. intros H. apply some_inj in H. auto.
Qed.
Lemma quot_fx_nonneg a b r : 0 <= a -> 0 < b -> quot_fx a b = Some r -> 0 <= r.
Proof.
  intros P B H. destruct (Z.eq_dec a 0) as [->|N]. { cbn in H. apply some_inj in H. lia. }
  rewrite (quot_fx_eq a b r ltac:(lia) H). apply (qval_mono a b a b); lia.
Qed.
Lemma quot_fx_mono a b a' b' r r' : 0 <= a <= a' -> 0 < b' <= b -> quot_fx a b = Some r -> quot_fx a' b' = Some r' -> r <= r'.
Proof.
  intros A B H H'. destruct (Z.eq_dec a 0) as [->|N]. { cbn in H. apply some_inj in H. subst r. eapply quot_fx_nonneg; [| |exact H']; lia. }
  rewrite (quot_fx_eq a b r ltac:(lia) H), (quot_fx_eq a' b' r' ltac:(lia) H'). apply qval_mono; nia.
Qed.
Lemma quot_fx_le1 a b r : 0 <= a <= b -> 0 < b -> quot_fx a b = Some r -> r <= fone.
Proof.
  intros A B H. destruct (Z.eq_dec a 0) as [->|N]. { cbn in H. apply some_inj in H. subst r. pose proof fone_pos. lia. }
  rewrite (quot_fx_eq a b r ltac:(lia) H), <- (qval_self b B). apply qval_mono; nia.
Qed.
Lemma quot_fx_ge1 a b r : b <= a -> 0 < b -> quot_fx a b = Some r -> fone <= r.
Proof. intros A B H. rewrite (quot_fx_eq a b r ltac:(lia) H), <- (qval_self b B). apply qval_mono; nia. Qed.

(** the quotient, up to 2^-52 and half of 2^-48 *)
Lemma rne_err n d : 0 < d -> 2 * n - d <= 2 * (rne n d * d) <= 2 * n + d.
Proof. intros H. pose proof (rne_spec n d H) as (R & _). cbv zeta in R. nia. Qed.
Lemma qval_err a b : 0 < a -> 0 < b ->
  2 ^ 49 * a * (2 ^ 53 - 1) - b * 2 ^ 53 <= 2 * qval a b * b * 2 ^ 53 /\ 2 * qval a b * b * (2 ^ 53 - 1) <= 2 ^ 49 * a * 2 ^ 53 + b * 2 ^ 53.
Proof.
  intros A B. set (E := qexp a b). set (K := Z.abs E + 200).
  pose proof (quot_range a b A B) as M. pose proof (quot_as_rne a b K A B ltac:(unfold K; lia) ltac:(fold E; unfold K; lia)) as Q. fold E in Q.
  pose proof (qval_rne a b K ltac:(unfold K; lia)) as V. assert (S : snd (f64_quot a b) = 52 - E) by reflexivity. rewrite S in V.
  specialize (V ltac:(unfold K; lia) ltac:(unfold K; lia)). set (m := fst (f64_quot a b)) in *.
  assert (P1 : 0 < 2 ^ (K - (52 - E))) by (apply pow_pos; unfold K; lia). assert (P2 : 0 < 2 ^ (K - 48)) by (apply pow_pos; unfold K; lia).
  assert (P3 : 0 < 2 ^ K) by (apply pow_pos; unfold K; lia).
  assert (EK : 2 ^ K = 2 ^ 48 * 2 ^ (K - 48)) by (rewrite <- Z.pow_add_r by (unfold K; lia); f_equal; lia).
  pose proof (rne_err (a * 2 ^ K) (b * 2 ^ (K - (52 - E))) ltac:(nia)) as R1. rewrite <- Q in R1.
  pose proof (rne_err (m * 2 ^ (K - (52 - E))) (2 ^ (K - 48)) P2) as R2. rewrite <- V in R2.
  set (v := qval a b) in *. set (D := 2 ^ (K - (52 - E))) in *. set (F := 2 ^ (K - 48)) in *. set (G := 2 ^ K) in *. clearbody m v D F G.
  assert (M1 : 2 ^ 52 <= m) by apply M. clear - A B R1 R2 P1 P2 P3 EK M1.
  assert (X1 : (2 ^ 53 - 1) * (m * (b * D)) <= 2 ^ 53 * (a * G)). { change (2 ^ 53) with (2 * 2 ^ 52) in *. assert (b * D * 2 ^ 52 <= b * D * m) by nia. nia. }
  assert (X2 : 2 ^ 53 * (a * G) <= (2 ^ 53 + 1) * (m * (b * D))). { change (2 ^ 53) with (2 * 2 ^ 52) in *. assert (b * D * 2 ^ 52 <= b * D * m) by nia. nia. }
  (* 2 v F b within F b of 2 m D b *)
  assert (Y1 : 2 * (v * F) * b <= 2 * (m * (b * D)) + F * b) by nia. assert (Y2 : 2 * (m * (b * D)) - F * b <= 2 * (v * F) * b) by nia.
  subst G. set (u := m * (b * D)) in *. clearbody u. clear R1 R2.
  change (2 ^ 49) with (2 * 2 ^ 48). revert X1 X2. set (k53 := 2 ^ 53). set (k48 := 2 ^ 48). assert (K53 : 1 < k53) by (unfold k53; reflexivity). clearbody k53 k48. intros X1 X2. split.
  - assert (Z1 : F * (2 * k48 * a * (k53 - 1) - b * k53) <= F * (2 * v * b * k53)); [|nia].
    assert (U : 2 * u * k53 - F * b * k53 <= F * (2 * v * b * k53)) by nia.
    assert (T : F * (2 * k48 * a * (k53 - 1)) <= 2 * u * k53); [|nia].
    assert (T1 : (k53 - 1) * (k53 * (a * (k48 * F))) <= (k53 - 1) * ((k53 + 1) * u)) by (apply Z.mul_le_mono_nonneg_l; lia).
    assert (T2 : (k53 - 1) * ((k53 + 1) * u) <= k53 * (k53 * u)).
    { assert (0 <= u) by nia. nia. }
    assert (T3 : k53 * ((k53 - 1) * (a * (k48 * F))) <= k53 * (k53 * u)) by nia.
    assert (T4 : (k53 - 1) * (a * (k48 * F)) <= k53 * u) by nia. nia.
  - assert (Z1 : F * (2 * v * b * (k53 - 1)) <= F * (2 * k48 * a * k53 + b * k53)); [|nia].
    assert (U : F * (2 * v * b * (k53 - 1)) <= (2 * u + F * b) * (k53 - 1)) by nia. nia.
Qed.

(** ** deposits and borrows in quote *)
Lemma round_nn x : 0 <= x -> 0 <= f64_round x. Proof. intros H. apply (f64_round_mono x x). lia. Qed.
Lemma deposits_quote_mono b b' p p' : 0 <= native_deposits b <= native_deposits b' -> 0 <= b_serum b <= b_serum b' -> 0 <= p <= p' ->
  0 <= deposits_quote b p <= deposits_quote b' p'.
Proof.
  intros A B C. unfold deposits_quote. pose proof (f64_round_mono _ _ A) as A1.
  assert (B0 : 0 <= of_int (b_serum b) <= of_int (b_serum b')) by (unfold of_int; pose proof fone_pos; nia).
  pose proof (f64_round_mono _ _ B0) as B1. pose proof (f64_round_mono _ _ C) as C1.
  assert (D : 0 <= f64_round (native_deposits b) + f64_round (of_int (b_serum b)) <= f64_round (native_deposits b') + f64_round (of_int (b_serum b'))) by lia.
  apply f64_round_mono in D. apply f64_round_mono. nia.
Qed.
Lemma borrows_quote_mono b b' p p' : 0 <= native_borrows b <= native_borrows b' -> 0 <= p <= p' -> 0 <= borrows_quote b p <= borrows_quote b' p'.
Proof.
  intros A C. unfold borrows_quote. pose proof (f64_round_mono _ _ A) as A1. pose proof (f64_round_mono _ _ C) as C1. apply f64_round_mono. nia.
Qed.

Lemma round_lo x : 0 <= x -> (2 ^ 53 - 1) * x <= 2 ^ 53 * f64_round x. Proof. intros H. pose proof (f64_round_err x H). lia. Qed.
Lemma round_hi x : 0 <= x -> 2 ^ 53 * f64_round x <= (2 ^ 53 + 1) * x. Proof. intros H. pose proof (f64_round_err x H). lia. Qed.
(** relative errors of [n] parts in [k] *)
Definition near (k n x y : Z) : Prop := 0 <= x /\ 0 <= y /\ (k - n) * x <= k * y <= (k + n) * x.
Lemma near_trans k a b x y z : 64 <= k -> 0 <= a <= 7 -> 0 <= b <= 7 -> near k a x y -> near k b y z -> near k (a + b + 1) x z.
Proof.
  intros K A B (X & Y & L & U) (_ & Z0 & L' & U'). split; [exact X|]. split; [exact Z0|].
  assert (P : 0 < k) by lia. split; apply (Z.mul_le_mono_pos_l _ _ k P).
  - apply (Z.mul_le_mono_nonneg_l _ _ (k - b)) in L; [|lia]. apply (Z.mul_le_mono_nonneg_l _ _ k) in L'; [|lia].
    assert (N : k * (k - (a + b + 1)) * x <= (k - b) * (k - a) * x) by (apply Z.mul_le_mono_nonneg_r; [exact X|nia]). lia.
  - apply (Z.mul_le_mono_nonneg_l _ _ (k + b)) in U; [|lia]. apply (Z.mul_le_mono_nonneg_l _ _ k) in U'; [|lia].
    assert (N : (k + b) * (k + a) * x <= k * (k + (a + b + 1)) * x) by (apply Z.mul_le_mono_nonneg_r; [exact X|nia]). lia.
Qed.
Lemma near_mul k a b x y p q : 64 <= k -> 0 <= a <= 7 -> 0 <= b <= 7 -> near k a x y -> near k b p q -> near k (a + b + 1) (x * p) (y * q).
Proof.
  intros K A B (X & Y & L & U) (P0 & Q0 & L' & U').
  apply (near_trans k a b (x * p) (y * p) (y * q)); try assumption; (split; [apply Z.mul_nonneg_nonneg; assumption|]); (split; [apply Z.mul_nonneg_nonneg; assumption|]).
  - rewrite !Z.mul_assoc. split; apply Z.mul_le_mono_nonneg_r; assumption.
  - apply (Z.mul_le_mono_nonneg_r _ _ y Y) in L', U'. lia.
Qed.
Lemma near_add k a x y x' y' : near k a x y -> near k a x' y' -> near k a (x + x') (y + y').
Proof. intros (X & Y & L & U) (X' & Y' & L' & U'). split; [lia|]. split; [lia|]. lia. Qed.
Lemma near_round x : 0 <= x -> near (2 ^ 53) 1 x (f64_round x).
Proof. intros H. split; [exact H|]. split; [apply round_nn, H|]. split; [apply round_lo, H|apply round_hi, H]. Qed.
(** four roundings are less than 2^-50 *)
Lemma near_50 n V t : 0 <= n <= 8 -> near (2 ^ 53) n V t -> (2 ^ 50 - 1) * V <= 2 ^ 50 * t <= (2 ^ 50 + 1) * V.
Proof. intros N (A & B & L & U). change (2 ^ 53) with (8 * 2 ^ 50) in *. set (j := 2 ^ 50) in *. clearbody j. assert (0 <= n * V) by nia. assert (n * V <= 8 * V) by nia. lia. Qed.
Lemma deposits_quote_err b p : 0 <= native_deposits b -> 0 <= b_serum b -> 0 <= p ->
  let V := (native_deposits b + of_int (b_serum b)) * p in
  (2 ^ 50 - 1) * V <= 2 ^ 50 * deposits_quote b p <= (2 ^ 50 + 1) * V.
Proof.
  intros A B C. cbv zeta. unfold deposits_quote. assert (B' : 0 <= of_int (b_serum b)) by (unfold of_int; pose proof fone_pos; nia).
  assert (K : 64 <= 2 ^ 53) by discriminate.
  pose proof (near_add _ _ _ _ _ _ (near_round _ A) (near_round _ B')) as S. pose proof S as (_ & S0 & _).
  pose proof (near_trans _ 1 1 _ _ _ K ltac:(lia) ltac:(lia) S (near_round _ S0)) as S1.
  pose proof (near_mul _ 3 1 _ _ _ _ K ltac:(lia) ltac:(lia) S1 (near_round _ C)) as T. pose proof T as (_ & T0 & _).
  pose proof (near_trans _ 5 1 _ _ _ K ltac:(lia) ltac:(lia) T (near_round _ T0)) as U.
  exact (near_50 7 _ _ ltac:(lia) U).
Qed.
Lemma borrows_quote_err b p : 0 <= native_borrows b -> 0 <= p ->
  let V := native_borrows b * p in (2 ^ 50 - 1) * V <= 2 ^ 50 * borrows_quote b p <= (2 ^ 50 + 1) * V.
Proof.
  intros A C. cbv zeta. unfold borrows_quote. assert (K : 64 <= 2 ^ 53) by discriminate.
  pose proof (near_mul _ 1 1 _ _ _ _ K ltac:(lia) ltac:(lia) (near_round _ A) (near_round _ C)) as T. pose proof T as (_ & T0 & _).
  pose proof (near_trans _ 3 1 _ _ _ K ltac:(lia) ltac:(lia) T (near_round _ T0)) as U.
  exact (near_50 5 _ _ ltac:(lia) U).
Qed.

(** ** the scaled weights *)
(** quotient times divisor: [V] is [b] up to 2^-50 *)
Lemma quot_fx_bounds a b V r : 0 <= a -> 0 < b -> (2 ^ 50 - 1) * V <= 2 ^ 50 * b <= (2 ^ 50 + 1) * V -> quot_fx a b = Some r ->
  (2 ^ 49 - 1) * a - 2 * V <= 2 * r * V <= (2 ^ 49 + 1) * a + 2 * V.
Proof.
  intros A B [V1 V2] H. assert (R0 : 0 <= r) by (eapply quot_fx_nonneg; eassumption). assert (V0 : 0 < V) by lia.
  destruct (Z.eq_dec a 0) as [->|N]. { cbn in H. apply some_inj in H. subst r. lia. }
  rewrite (quot_fx_eq a b r ltac:(lia) H) in *. pose proof (qval_err a b ltac:(lia) B) as [Q1 Q2]. set (v := qval a b) in *. clearbody v. clear H N.
  change (2 ^ 53) with (16 * 2 ^ 49) in *. change (2 ^ 50) with (2 * 2 ^ 49) in *. assert (K : 64 <= 2 ^ 49) by discriminate. set (k := 2 ^ 49) in *. clearbody k.
  assert (VB : 0 <= v * b) by nia. assert (VV : 0 <= v * V) by nia.
  assert (W1 : (2 * k - 1) * (v * V) <= 2 * k * (v * b)) by nia. assert (W2 : 2 * k * (v * b) <= (2 * k + 1) * (v * V)) by nia.
  set (x := v * b) in *. set (y := v * V) in *. replace (2 * v * b * (16 * k)) with (32 * (k * x)) in Q1 by (unfold x; ring).
  replace (2 * v * b * (16 * k - 1)) with (32 * (k * x) - 2 * x) in Q2 by (unfold x; ring). replace (2 * v * V) with (2 * y) by (unfold y; ring). clearbody x y.
  split.
  - (* 32 k y >= 32 k x - 16 y >= k a (16 k - 1) - 16 k b - 16 y *)
    assert (T1 : 32 * (k * y) + 16 * y >= k * a * (16 * k - 1) - b * (16 * k)) by lia.
    assert (T2 : (k - 1) * a <= 2 * y + 2 * V); [|lia].
    apply (Z.mul_le_mono_pos_l _ _ (16 * k + 8)); [lia|].
    replace ((16 * k + 8) * (2 * y + 2 * V)) with (32 * (k * y) + 16 * y + (32 * k + 16) * V) by ring.
    assert (T3 : b * (16 * k) <= 8 * ((2 * k + 1) * V)) by lia.
    assert (T4 : (16 * k + 8) * ((k - 1) * a) <= k * a * (16 * k - 1)) by nia. lia.
  - assert (T1 : 16 * (2 * k - 1) * y - 2 * x <= k * a * (16 * k) + b * (16 * k)) by lia.
    assert (T2 : 2 * x <= 3 * y) by nia.
    assert (T3 : b * (16 * k) <= 8 * ((2 * k + 1) * V)) by lia.
    apply (Z.mul_le_mono_pos_l _ _ (16 * k - 10)); [lia|].
    replace ((16 * k - 10) * (2 * y)) with (16 * (2 * k - 1) * y - 3 * y - y) by ring.
    assert (T4 : k * a * (16 * k) <= (16 * k - 10) * ((k + 1) * a)) by nia.
    assert (T5 : 8 * ((2 * k + 1) * V) <= (16 * k - 10) * (2 * V)) by nia. assert (0 <= y) by assumption. lia.
Qed.
