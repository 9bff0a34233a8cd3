(** Rounding of doubles, and bounds on updates of the stable price. *)
From Coq Require Import List ZArith Lia Bool.
From Verif Require Import Bank Health HealthDiv ScalingFacts InterestFacts StablePrice Fixed.
Import ListNotations.
Open Scope Z_scope.

(** ** rounding *)
Lemma floor_mono a b c d : 0 < b -> 0 < d -> a * d <= c * b -> a / b <= c / d.
Proof.
  intros B D H. pose proof (Z.div_mod a b ltac:(lia)) as E1. pose proof (Z.mod_pos_bound a b B) as M1.
  pose proof (Z.div_mod c d ltac:(lia)) as E2. pose proof (Z.mod_pos_bound c d D) as M2.
  set (q := a / b) in *. set (r := a mod b) in *. set (k := c / d) in *. set (t := c mod d) in *. clearbody q r k t.
  destruct (Z.le_gt_cases q k); [assumption|exfalso]. assert ((k + 1) * (b * d) <= q * (b * d)) by nia. nia.
Qed.
Lemma log_spec q : 2 ^ 53 <= q -> let s := Z.log2 q - 52 in 1 <= s /\ 2 ^ 52 * 2 ^ s <= q < 2 ^ 53 * 2 ^ s.
Proof.
  intros H s. assert (P : 0 < q) by lia. pose proof (Z.log2_spec q P) as [L1 L2].
  assert (S1 : 53 <= Z.log2 q) by (apply Z.log2_le_pow2; lia). assert (S : 1 <= s) by (unfold s; lia). split; [exact S|].
  rewrite <- !Z.pow_add_r by lia. replace (52 + s) with (Z.log2 q) by (unfold s; lia). replace (53 + s) with (Z.succ (Z.log2 q)) by (unfold s; lia). lia.
Qed.
Lemma big_bounds a b : 0 < b -> 2 ^ 53 <= a / b -> let s := Z.log2 (a / b) - 52 in
  1 <= s /\ 2 ^ 52 * (b * 2 ^ s) <= a < 2 ^ 53 * (b * 2 ^ s) /\ 2 ^ 52 <= rne a (b * 2 ^ s) <= 2 ^ 53.
Proof.
  intros B H s. destruct (log_spec (a / b) H) as (S & L1 & L2). fold s in S, L1, L2. clearbody s. split; [exact S|].
  pose proof (pow_pos s ltac:(lia)) as P. set (w := 2 ^ s) in *. clearbody w.
  pose proof (Z.div_mod a b ltac:(lia)) as E. pose proof (Z.mod_pos_bound a b B) as M. set (q := a / b) in *. clearbody q. set (r := a mod b) in *. clearbody r.
  assert (K : 2 ^ 52 * (b * w) <= a < 2 ^ 53 * (b * w)) by nia. split; [exact K|]. apply rne_between; nia.
Qed.
Lemma rnd_mono a b c d : 0 < b -> 0 < d -> 0 <= a -> a * d <= c * b -> rnd a b <= rnd c d.
Proof.
  intros B D A H. pose proof (floor_mono a b c d B D H) as F. unfold rnd. destruct (Z.ltb_spec (a / b) (2 ^ 53)) as [Q1|Q1], (Z.ltb_spec (c / d) (2 ^ 53)) as [Q2|Q2]; try lia.
  - apply rne_mono; assumption.
  - destruct (big_bounds c d D Q2) as (S & _ & R & _). cbv zeta. set (s := Z.log2 (c / d) - 52) in *. clearbody s.
    assert (W : 2 <= 2 ^ s) by (change 2 with (2 ^ 1) at 1; apply Z.pow_le_mono_r; lia).
    assert (X : rne a b <= 2 ^ 53). { rewrite <- (rne_int (2 ^ 53) 1) by lia. apply rne_mono; [assumption|lia|].
      pose proof (Z.div_mod a b ltac:(lia)) as E. pose proof (Z.mod_pos_bound a b B) as M. set (q := a / b) in *. clearbody q. assert (b * (q + 1) <= b * 2 ^ 53) by (apply Z.mul_le_mono_nonneg_l; lia). lia. }
    lia.
  - destruct (big_bounds a b B Q1) as (S1 & K1 & R1). destruct (big_bounds c d D Q2) as (S2 & K2 & R2). cbv zeta.
    assert (LS : Z.log2 (a / b) - 52 <= Z.log2 (c / d) - 52) by (pose proof (Z.log2_le_mono _ _ F); lia).
    set (s := Z.log2 (a / b) - 52) in *. set (t := Z.log2 (c / d) - 52) in *. clearbody s t.
    pose proof (pow_pos s ltac:(lia)) as P. destruct (Z.eq_dec s t) as [->|N].
    + apply Z.mul_le_mono_nonneg_r; [lia|]. apply rne_mono; nia.
    + destruct R1 as [_ R1]. destruct R2 as [R2 _]. set (r1 := rne a _) in *. set (r2 := rne c _) in *. clearbody r1 r2.
      assert (E : 2 * 2 ^ s <= 2 ^ t). { replace (2 * 2 ^ s) with (2 ^ (s + 1)) by (rewrite Z.pow_add_r by lia; lia). apply Z.pow_le_mono_r; lia. }
      set (w := 2 ^ s) in *. set (v := 2 ^ t) in *. clearbody w v. clear - P E R1 R2.
      assert (r1 * w <= 2 ^ 53 * w) by (apply Z.mul_le_mono_nonneg_r; lia). assert (2 ^ 52 * v <= r2 * v) by (apply Z.mul_le_mono_nonneg_r; lia). lia.
Qed.
Lemma rnd_nonneg a b : 0 < b -> 0 <= a -> 0 <= rnd a b.
Proof. intros B A. change 0 with (rnd 0 1). apply rnd_mono; lia. Qed.
(** doubles *)
Definition f64 (x : Z) : Prop := 0 <= x /\ rnd x 1 = x.
Lemma rnd_int x b : 0 < b -> rnd (x * b) b = rnd x 1.
Proof.
  intros B. unfold rnd. rewrite Z.div_mul, Z.div_1_r by lia. destruct (x <? 2 ^ 53) eqn:E; [rewrite rne_int by lia; rewrite <- (rne_int x 1) at 1 by lia; f_equal; lia|].
  apply Z.ltb_ge in E. destruct (log_spec x E) as (S & _). cbv zeta. set (s := Z.log2 x - 52) in *. clearbody s. pose proof (pow_pos s ltac:(lia)).
  rewrite (Z.mul_comm b), Z.mul_1_l, rne_scale by lia. reflexivity.
Qed.
Lemma rnd_id x b : 0 < b -> f64 x -> rnd (x * b) b = x.
Proof. intros B [_ F]. rewrite rnd_int by exact B. exact F. Qed.
Lemma f64_small x : 0 <= x <= 2 ^ 53 -> f64 x.
Proof.
  intros H. split; [lia|]. destruct (Z.eq_dec x (2 ^ 53)) as [->|N]; [vm_compute; reflexivity|]. unfold rnd. rewrite Z.div_1_r.
  destruct (Z.ltb_spec x (2 ^ 53)); [|lia]. rewrite <- (Z.mul_1_r x) at 1. apply rne_int. lia.
Qed.
Lemma f64_scaled m s : 0 <= s -> 0 <= m <= 2 ^ 53 -> f64 (m * 2 ^ s).
Proof.
  intros S H. pose proof (pow_pos s S) as P. split; [nia|]. unfold rnd. rewrite Z.div_1_r. destruct (Z.ltb_spec (m * 2 ^ s) (2 ^ 53)) as [L|L].
  - rewrite <- (Z.mul_1_r (m * 2 ^ s)) at 1. apply rne_int. lia.
  - cbv zeta. rewrite Z.mul_1_l. destruct (log_spec _ L) as (T & L1 & L2). set (t := Z.log2 (m * 2 ^ s) - 52) in *. clearbody t.
    assert (TS : t <= s + 1). { destruct (Z.le_gt_cases t (s + 1)); [assumption|exfalso]. replace t with (2 + s + (t - s - 2)) in L1 by lia. rewrite !Z.pow_add_r in L1 by lia. pose proof (pow_pos (t - s - 2) ltac:(lia)). change (2 ^ 2) with 4 in L1. set (w := 2 ^ s) in *. set (v := 2 ^ (t - s - 2)) in *. clearbody w v. nia. }
    destruct (Z.eq_dec t (s + 1)) as [->|N].
    + assert (m = 2 ^ 53). { rewrite Z.pow_add_r in L1 by lia. change (2 ^ 1) with 2 in L1. set (w := 2 ^ s) in *. clearbody w. nia. } subst m.
      replace (2 ^ 53 * 2 ^ s) with (2 ^ 52 * 2 ^ (s + 1)) by (rewrite Z.pow_add_r by lia; lia). rewrite rne_int; [reflexivity|apply pow_pos; lia].
    + replace s with ((s - t) + t) at 1 by lia. rewrite Z.pow_add_r by lia. rewrite Z.mul_assoc, rne_int by (apply pow_pos; lia).
      rewrite <- Z.mul_assoc, <- Z.pow_add_r by lia. do 2 f_equal. lia.
Qed.
Lemma rnd_f64 a b : 0 < b -> 0 <= a -> f64 (rnd a b).
Proof.
  intros B A. pose proof (rnd_nonneg a b B A) as NN. unfold rnd in *. destruct (Z.ltb_spec (a / b) (2 ^ 53)) as [Q|Q].
  - apply f64_small. split; [exact NN|]. rewrite <- (rne_int (2 ^ 53) 1) by lia. apply rne_mono; [assumption|lia|].
    pose proof (Z.div_mod a b ltac:(lia)) as E. pose proof (Z.mod_pos_bound a b B) as M. set (q := a / b) in *. clearbody q. assert (b * (q + 1) <= b * 2 ^ 53) by (apply Z.mul_le_mono_nonneg_l; lia). lia.
  - destruct (big_bounds a b B Q) as (S & _ & R). cbv zeta in *. apply f64_scaled; lia.
Qed.
(** the error is at most one in 2^53, or half a unit *)
Lemma rnd_err a b : 0 < b -> 0 <= a ->
  2 ^ 54 * (rnd a b * b) <= a * (2 ^ 54 + 2) + 2 ^ 53 * b /\ a * (2 ^ 54 - 2) - 2 ^ 53 * b <= 2 ^ 54 * (rnd a b * b).
Proof.
  intros B A. unfold rnd. destruct (Z.ltb_spec (a / b) (2 ^ 53)) as [Q|Q].
  - pose proof (rne_err a b B). lia.
  - destruct (big_bounds a b B Q) as (S & K & _). cbv zeta. set (s := Z.log2 (a / b) - 52) in *. clearbody s. pose proof (pow_pos s ltac:(lia)) as P.
    pose proof (rne_err a (b * 2 ^ s) ltac:(nia)) as R. replace (rne a (b * 2 ^ s) * 2 ^ s * b) with (rne a (b * 2 ^ s) * (b * 2 ^ s)) by lia.
    set (r := rne a _ * (b * 2 ^ s)) in *. set (w := b * 2 ^ s) in *. clearbody r w. lia.
Qed.
Lemma one_f64 : f64 ONE. Proof. split; [discriminate|vm_compute; reflexivity]. Qed.
Lemma one_pos : 0 < ONE. Proof. reflexivity. Qed.
Global Opaque ONE.

(** ** one update *)
Lemma clamp_between t prev limit : 0 <= t -> f64 prev -> 0 <= limit ->
  Z.min prev t <= growth_clamped t prev limit <= Z.max prev t /\
  growth_clamped t prev limit <= f_mul prev (f_add ONE limit) /\
  (limit <= ONE -> f_mul prev (f_sub ONE limit) <= growth_clamped t prev limit).
Proof.
  intros T F L. pose proof one_pos as O. destruct F as [P F].
  assert (A1 : prev <= f_mul prev (f_add ONE limit)).
  { assert (ONE <= f_add ONE limit). { unfold f_add. destruct one_f64 as [_ E]. rewrite <- E at 1. apply rnd_mono; lia. }
    unfold f_mul. rewrite <- (rnd_id prev ONE O (conj P F)) at 1. apply rnd_mono; nia. }
  assert (A2 : limit <= ONE -> f_mul prev (f_sub ONE limit) <= prev).
  { intros LE. assert (0 <= f_sub ONE limit <= ONE). { unfold f_sub. split; [apply rnd_nonneg; lia|]. destruct one_f64 as [_ E]. rewrite <- E at 2. apply rnd_mono; lia. }
    unfold f_mul. rewrite <- (rnd_id prev ONE O (conj P F)) at 2. apply rnd_mono; nia. }
  unfold growth_clamped. cbv zeta. set (mx := f_mul prev (f_add ONE limit)) in *.
  assert (M : exists mn, (if limit <=? ONE then f_mul prev (f_sub ONE limit) else 0) = mn /\ mn <= prev /\ (limit <= ONE -> mn = f_mul prev (f_sub ONE limit))).
  { eexists. split; [reflexivity|]. destruct (Z.leb_spec limit ONE); [auto|]. split; [lia|]. lia. }
  destruct M as (mn & -> & M1 & M2). clearbody mx.
  destruct (Z.ltb_spec t mn); [|destruct (Z.ltb_spec mx t)]; (split; [lia|]; split; [lia|]; intros LE; rewrite <- (M2 LE); lia).
Qed.
Lemma mul_nonneg a b : 0 <= a -> 0 <= b -> 0 <= f_mul a b.
Proof. intros. unfold f_mul. apply rnd_nonneg; [apply one_pos|nia]. Qed.
Lemma mul_le1 a f : f64 a -> 0 <= f <= ONE -> f_mul a f <= a.
Proof. intros F H. unfold f_mul. rewrite <- (rnd_id a ONE one_pos F) at 2. destruct F as [A _]. pose proof one_pos. apply rnd_mono; [assumption|assumption|nia|]. apply Z.mul_le_mono_nonneg_r; [lia|]. apply Z.mul_le_mono_nonneg_l; lia. Qed.
Lemma mul_f64 a b : 0 <= a -> 0 <= b -> f64 (f_mul a b).
Proof. intros. unfold f_mul. apply rnd_f64; [apply one_pos|nia]. Qed.
Lemma div_le1 a b : 0 <= a <= b -> 0 < b -> 0 <= f_div a b <= ONE.
Proof.
  intros H B. unfold f_div. pose proof one_pos. split; [apply rnd_nonneg; nia|]. destruct one_f64 as [X E]. rewrite <- (rnd_id ONE b B (conj X E)) at 2. apply rnd_mono; nia.
Qed.
Lemma clamp_f64 t prev limit : f64 t -> f64 prev -> 0 <= limit -> f64 (growth_clamped t prev limit).
Proof.
  intros T P L. unfold growth_clamped. cbv zeta. destruct T as [T0 T1], P as [P0 P1]. pose proof one_pos.
  assert (M1 : f64 (f_mul prev (f_add ONE limit))) by (apply mul_f64; [assumption|apply rnd_nonneg; lia]).
  assert (M2 : f64 (if limit <=? ONE then f_mul prev (f_sub ONE limit) else 0)).
  { destruct (Z.leb_spec limit ONE); [apply mul_f64; [assumption|apply rnd_nonneg; lia]|apply f64_small; lia]. }
  set (mn := if limit <=? ONE then f_mul prev (f_sub ONE limit) else 0) in *. clearbody mn. destruct (_ <? _); [assumption|]. destruct (_ <? _); [assumption|split; assumption].
Qed.

(** ** what an update does to the price *)
Definition after_reset (now o : Z) (m : spm) : spm := if st_reset m && (0 <? o) then reset_to o now m else m.
Definition elapsed (now : Z) (m : spm) : Z := Z.max 0 (now - st_last m).
Definition sound (m : spm) : Prop := f64 (st_price m) /\ Forall (fun d => 0 <= d) (st_delay m) /\ 0 <= st_acc m /\ 0 <= st_acc_t m /\ f64 (st_sgl m) /\ 0 <= st_dgl m.
Lemma delay_nonneg L i : Forall (fun d => 0 <= d) L -> 0 <= delay_at L i.
Proof.
  intros F. unfold delay_at. destruct (nth_in_or_default (Z.to_nat i) L 0) as [I| ->]; [|lia]. rewrite Forall_forall in F. apply F, I.
Qed.
Lemma clamp_nonneg t prev limit : 0 <= t -> 0 <= prev -> 0 <= limit -> 0 <= growth_clamped t prev limit.
Proof.
  intros T P L. unfold growth_clamped. cbv zeta. pose proof one_pos.
  assert (M1 : 0 <= f_mul prev (f_add ONE limit)) by (apply mul_nonneg; [assumption|apply rnd_nonneg; lia]).
  assert (M2 : 0 <= (if limit <=? ONE then f_mul prev (f_sub ONE limit) else 0)).
  { destruct (Z.leb_spec limit ONE); [apply mul_nonneg; [assumption|apply rnd_nonneg; lia]|lia]. }
  set (mn := if limit <=? ONE then f_mul prev (f_sub ONE limit) else 0) in *. clearbody mn. destruct (_ <? _); [assumption|]. destruct (_ <? _); assumption.
Qed.
Lemma fill_nonneg full a b v L : 0 <= v -> Forall (fun d => 0 <= d) L -> Forall (fun d => 0 <= d) (fill full a b v L).
Proof.
  intros V F. unfold fill. apply Forall_forall. intros x I. apply in_map_iff in I as ((i, y) & <- & I). apply in_combine_r in I.
  rewrite Forall_forall in F. specialize (F y I). cbv zeta. destruct (_ || _); assumption.
Qed.
Lemma next_nonneg m full ix acc acc_t L : sound m -> 0 <= acc -> 0 <= acc_t -> next_delays m full ix acc acc_t = Some L -> Forall (fun d => 0 <= d) L.
Proof.
  intros (_ & D & _ & _ & _ & G) A T H. unfold next_delays in H. destruct (Z.eqb_spec acc_t 0); [discriminate|]. apply some_inj in H. subst L.
  apply fill_nonneg; [|exact D]. pose proof one_pos. apply clamp_nonneg; [|apply delay_nonneg, D|exact G]. unfold f_div, f_of. apply rnd_nonneg; nia.
Qed.
Lemma mul_mono a b c d : 0 <= a <= c -> 0 <= b <= d -> f_mul a b <= f_mul c d.
Proof. intros H K. unfold f_mul. pose proof one_pos as O. apply rnd_mono; [assumption|assumption|nia|]. apply Z.mul_le_mono_nonneg_r; [lia|]. nia. Qed.
Lemma reset_sound o now m : f64 o -> sound m -> sound (after_reset now o m).
Proof.
  intros O S. unfold after_reset. destruct (_ && _); [|exact S]. destruct S as (_ & _ & _ & _ & G & D). unfold sound, reset_to. cbn [st_price st_delay st_acc st_acc_t st_sgl st_dgl].
  split; [exact O|]. split; [|split; [lia|split; [lia|split; [exact G|exact D]]]]. apply Forall_forall. intros x I. apply repeat_spec in I. subst x. apply O.
Qed.
(** the fraction of the growth limit that applies, and the limit *)
Definition fraction_of (p d : Z) : Z := if p <=? d then f_div p d else f_div d p.
Definition limit_of (sgl fraction dtl : Z) : Z := f_mul (f_mul (f_mul sgl fraction) fraction) (f_of dtl).
Lemma update_inv now o m m' : f64 o -> sound m -> update now o m = Some m' ->
  let m1 := after_reset now o m in let dt := elapsed now m1 in
  sound m' /\ st_sgl m' = st_sgl m /\ st_dgl m' = st_dgl m /\ st_interval m' = st_interval m /\ st_last m' = st_last m1 + (if dt <? 10 then 0 else dt) /\ st_reset m' = st_reset m1 /\
  (dt < 10 -> m' = m1) /\
  (10 <= dt -> exists d, 0 <= d /\ st_last m' = now /\ d = delay_at (st_delay m') (st_ix m') /\ (0 < st_price m1 \/ 0 < d) /\
     st_price m' = growth_clamped o (st_price m1) (limit_of (st_sgl m) (fraction_of (st_price m1) d) (Z.min dt 600))).
Proof.
  intros O S H. pose proof (reset_sound o now m O S) as S1. unfold update in H. fold (after_reset now o m) in H. cbv zeta in *.
  assert (K : st_sgl (after_reset now o m) = st_sgl m /\ st_dgl (after_reset now o m) = st_dgl m /\ st_interval (after_reset now o m) = st_interval m)
    by (unfold after_reset; destruct (_ && _); auto).
  destruct K as (K1 & K2 & K3). set (m1 := after_reset now o m) in *. clearbody m1. fold (elapsed now m1) in H.
  destruct (Z.ltb_spec (elapsed now m1) 10) as [E|E].
  - apply some_inj in H. subst m'. split; [exact S1|]. split; [exact K1|]. split; [exact K2|]. split; [exact K3|]. split; [lia|]. split; [reflexivity|]. split; [reflexivity|lia].
  - destruct (_ || _) eqn:G; [discriminate|]. apply orb_false_iff in G as [_ G]. apply Z.eqb_neq in G.
    match type of H with match ?x with Some _ => _ | None => None end = _ => destruct x as [[[L acc] acc_t]|] eqn:D; [|discriminate H] end.
    set (dtl := Z.min (elapsed now m1) 600) in *. assert (DL : 10 <= dtl) by (unfold dtl; lia). pose proof one_pos as O1.
    assert (A0 : 0 <= f_add (st_acc m1) (f_mul o (f_of dtl))).
    { unfold f_add. apply rnd_nonneg; [lia|]. destruct S1 as (_ & _ & A & _). assert (0 <= f_mul o (f_of dtl)) by (apply mul_nonneg; [apply O|unfold f_of; nia]). lia. }
    assert (T0 : 0 <= st_acc_t m1 + elapsed now m1 mod 2 ^ 32).
    { destruct S1 as (_ & _ & _ & A & _). pose proof (Z.mod_pos_bound (elapsed now m1) (2 ^ 32) ltac:(reflexivity)). lia. }
    assert (S2 : Forall (fun d => 0 <= d) L /\ 0 <= acc /\ 0 <= acc_t).
    { destruct (_ =? st_ix m1); [apply some_inj in D; inversion D; subst; split; [apply S1|split; assumption]|].
      destruct (next_delays _ _ _ _ _) as [L0|] eqn:N; [|discriminate]. apply some_inj in D. inversion D; subst. split; [|lia]. apply (next_nonneg _ _ _ _ _ _ S1 A0 T0 N). }
    clear D A0 T0. destruct S2 as (S2 & S3 & S4).
    match type of H with (if ?c then _ else _) = _ => destruct c eqn:Z0; [discriminate H|] end. apply some_inj in H. subst m'.
    set (ix := (now / st_interval m1) mod 24) in *. clearbody ix. set (d := delay_at L ix) in *. assert (D0 : 0 <= d) by (apply delay_nonneg, S2).
    change (if st_price m1 <=? d then f_div (st_price m1) d else f_div d (st_price m1)) with (fraction_of (st_price m1) d).
    rewrite K1. fold (limit_of (st_sgl m) (fraction_of (st_price m1) d) dtl). cbn [st_price st_last st_delay st_acc st_acc_t st_sgl st_dgl st_interval st_ix st_reset].
    destruct S1 as (P1 & P2 & P3 & P4 & P5 & P6).
    assert (PD : 0 < st_price m1 \/ 0 < d). { apply andb_false_iff in Z0. destruct P1 as [P1 _]. destruct Z0 as [Z0|Z0]; apply Z.eqb_neq in Z0; lia. }
    assert (FR : 0 <= fraction_of (st_price m1) d <= ONE).
    { destruct P1 as [P1 _]. unfold fraction_of. destruct (Z.leb_spec (st_price m1) d); apply div_le1; lia. }
    assert (LN : 0 <= limit_of (st_sgl m) (fraction_of (st_price m1) d) dtl).
    { rewrite K1 in P5. unfold limit_of. destruct P5 as [P5 _]. apply mul_nonneg; [|unfold f_of; nia]. apply mul_nonneg; [|lia]. apply mul_nonneg; lia. }
    split.
    { unfold sound. cbn [st_price st_last st_delay st_acc st_acc_t st_sgl st_dgl st_interval st_ix st_reset]. rewrite K1 in P5.
      split; [apply clamp_f64; assumption|]. split; [exact S2|]. split; [exact S3|]. split; [exact S4|]. split; [exact P5|exact P6]. }
    split; [reflexivity|]. split; [exact K2|]. split; [exact K3|]. split; [unfold elapsed in *; lia|]. split; [reflexivity|]. split; [lia|].
    intros _. exists d. split; [exact D0|]. split; [reflexivity|]. split; [reflexivity|]. split; [exact PD|reflexivity].
Qed.
Lemma limit_le sgl p d dtl : f64 sgl -> 0 <= p -> 0 <= d -> 0 < p \/ 0 < d -> 0 <= dtl -> 0 <= limit_of sgl (fraction_of p d) dtl <= rnd (sgl * dtl) 1.
Proof.
  intros G P D PD T. pose proof one_pos as O1.
  assert (FR : 0 <= fraction_of p d <= ONE) by (unfold fraction_of; destruct (Z.leb_spec p d); apply div_le1; lia).
  assert (F0 : f64 (f_mul sgl (fraction_of p d))) by (apply mul_f64; [apply G|lia]).
  pose proof (mul_le1 sgl _ G FR) as L1. pose proof (mul_le1 _ _ F0 FR) as L2. unfold limit_of.
  assert (N2 : 0 <= f_mul (f_mul sgl (fraction_of p d)) (fraction_of p d)) by (apply mul_nonneg; [apply F0|lia]).
  split; [apply mul_nonneg; [exact N2|unfold f_of; nia]|].
  replace (rnd (sgl * dtl) 1) with (f_mul sgl (f_of dtl)). { apply mul_mono; [lia|unfold f_of; nia]. }
  unfold f_mul, f_of. rewrite Z.mul_assoc, rnd_int by lia. reflexivity.
Qed.
Lemma one_large : 2 ^ 100 <= ONE. Proof. Transparent ONE. unfold ONE. apply Z.pow_le_mono_r; lia. Opaque ONE. Qed.
(** a step up, for prices of at least 2^53 units *)
Lemma step_up o p limit g : f64 p -> 0 <= o -> 0 <= limit <= rnd g 1 -> 0 <= g ->
  growth_clamped o p limit * (ONE * 2 ^ 50) <= Z.max p (2 ^ 53) * ((ONE + g) * (2 ^ 50 + 1)).
Proof.
  intros F O L G. destruct (clamp_between o p limit O F ltac:(lia)) as (_ & U & _). pose proof one_large as ON. destruct (rnd_err g 1 ltac:(lia) G) as [E1 _].
  destruct (rnd_err (ONE + limit) 1 ltac:(lia) ltac:(lia)) as [E2 _]. fold (f_add ONE limit) in E2. set (A := f_add ONE limit) in *.
  assert (A0 : 0 <= A) by (unfold A, f_add; apply rnd_nonneg; lia). clearbody A.
  assert (EA : 2 ^ 51 * A <= (ONE + g) * (2 ^ 51 + 1)) by (clear - E1 E2 L ON G; lia).
  set (P := Z.max p (2 ^ 53)). assert (PP : p <= P /\ 2 ^ 53 <= P) by (unfold P; lia). clearbody P.
  assert (U2 : growth_clamped o p limit <= f_mul P A) by (etransitivity; [exact U|]; destruct F; apply mul_mono; lia).
  destruct (rnd_err (P * A) ONE ltac:(lia) ltac:(nia)) as [E3 _]. fold (f_mul P A) in E3.
  set (x := growth_clamped o p limit) in *. clearbody x. set (y := f_mul P A) in *. clearbody y. clear U E1 E2 F O L.
  assert (X1 : 2 ^ 51 * (P * A) <= P * (ONE + g) * (2 ^ 51 + 1)) by nia.
  assert (X2 : 2 ^ 53 * ONE <= P * (ONE + g)) by nia.
  assert (X3 : x * ONE <= y * ONE) by nia.
  replace (P * ((ONE + g) * (2 ^ 50 + 1))) with (P * (ONE + g) * (2 ^ 50 + 1)) by lia. replace (x * (ONE * 2 ^ 50)) with (2 ^ 50 * (x * ONE)) by lia.
  set (Y := P * (ONE + g)) in *. set (X := P * A) in *. set (z := x * ONE) in *. set (w := y * ONE) in *. clearbody Y X z w. clear - E3 X1 X2 X3 ON. lia.
Qed.
(** a step down *)
Lemma step_down o p limit g : f64 p -> 0 <= o -> 0 <= limit <= rnd g 1 -> 0 <= g ->
  p * (ONE * 2 ^ 50 - g * 2 ^ 50 - ONE) - ONE * 2 ^ 50 <= growth_clamped o p limit * (ONE * 2 ^ 50).
Proof.
  intros F O L G. destruct (clamp_between o p limit O F ltac:(lia)) as (B & _ & D). pose proof one_large as ON. destruct (rnd_err g 1 ltac:(lia) G) as [E1 _].
  assert (P0 : 0 <= p) by apply F. set (x := growth_clamped o p limit) in *. assert (X0 : 0 <= x) by lia. clearbody x. clear B.
  destruct (Z.le_gt_cases (ONE * 2 ^ 50 - g * 2 ^ 50 - ONE) 0) as [N|N]; [nia|].
  assert (LO : limit <= ONE) by (clear - E1 L N ON G; lia). specialize (D LO).
  destruct (rnd_err (ONE - limit) 1 ltac:(lia) ltac:(lia)) as [_ E2]. fold (f_sub ONE limit) in E2.
  assert (B1 : 0 <= f_sub ONE limit <= ONE). { unfold f_sub. split; [apply rnd_nonneg; lia|]. destruct one_f64 as [_ Q]. rewrite <- Q at 2. apply rnd_mono; lia. }
  set (b := f_sub ONE limit) in *. clearbody b.
  assert (EB : 2 ^ 51 * (ONE - g) - ONE <= 2 ^ 51 * b) by (clear - E1 E2 L ON G N; lia).
  destruct (rnd_err (p * b) ONE ltac:(lia) ltac:(nia)) as [_ E3]. fold (f_mul p b) in E3. set (y := f_mul p b) in *. clearbody y.
  assert (X1 : 2 ^ 51 * (p * (ONE - g)) - p * ONE <= 2 ^ 51 * (p * b)) by nia.
  assert (X2 : 0 <= p * b <= p * ONE) by nia. assert (X3 : y * ONE <= x * ONE) by nia.
  replace (p * (ONE * 2 ^ 50 - g * 2 ^ 50 - ONE)) with (2 ^ 50 * (p * (ONE - g)) - p * ONE) by lia. replace (x * (ONE * 2 ^ 50)) with (2 ^ 50 * (x * ONE)) by lia.
  set (X := p * b) in *. set (W := p * ONE) in *. set (V := p * (ONE - g)) in *. set (z := x * ONE) in *. set (w := y * ONE) in *. clearbody X W V z w. clear - E3 X1 X2 X3 ON. lia.
Qed.
