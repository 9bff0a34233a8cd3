(** C95, C96: the stable price. *)
From Coq Require Import List ZArith Lia Bool.
From Verif Require Import Bank Health Fixed HealthDiv InterestFacts StablePrice StableFacts.
Import ListNotations.
Open Scope Z_scope.

(** ** specification *)
(** a double that is not negative, in units of 2^-1074 *)
Definition double (x : Z) : Prop := exists m e, 0 <= m < 2 ^ 53 /\ 0 <= e /\ x = m * 2 ^ e.
Definition nonneg (L : list Z) : Prop := forall d, In d L -> 0 <= d.
(** a stored stable price model *)
Definition stored (m : spm) : Prop :=
  double (st_price m) /\ nonneg (st_delay m) /\ 0 <= st_acc m /\ 0 <= st_acc_t m /\ double (st_sgl m) /\ 0 <= st_dgl m.
(** 1.0, and the relative precision 2^-50 that the rounding of doubles is within *)
Definition unit : Z := 2 ^ 1074.
Definition prec : Z := 2 ^ 50.
(** [p'] is at most [p * (1 + g)], up to rounding; a price below 2^-1021 counts as 2^-1021 *)
Definition rises (p p' g : Z) : Prop := p' * (unit * prec) <= Z.max p (2 ^ 53) * ((unit + g) * (prec + 1)).
(** [p'] is at least [p * (1 - g)], up to rounding *)
Definition falls (p p' g : Z) : Prop := p * (unit * prec - g * prec - unit) - unit * prec <= p' * (unit * prec).
(** the delay price that an update compared the stable price to *)
Definition compared (m : spm) : Z := nth (Z.to_nat (st_ix m)) (st_delay m) 0.
Definition far (p d : Z) : Prop := 2 * p <= d \/ 2 * d <= p.

(** ** proofs *)
Lemma double_f64 x : double x <-> f64 x.
Proof.
  split.
  - intros (m & e & M & E & ->). apply f64_scaled; lia.
  - intros [N R]. unfold rnd in R. rewrite Z.div_1_r in R. destruct (Z.ltb_spec x (2 ^ 53)) as [Q|Q].
    + exists x, 0. lia.
    + destruct (big_bounds x 1 ltac:(lia)) as (S & _ & B); [rewrite Z.div_1_r; exact Q|]. rewrite Z.div_1_r in S, B.
      cbv zeta in *. set (s := Z.log2 x - 52) in *. clearbody s. set (r := rne x (1 * 2 ^ s)) in *. clearbody r.
      destruct (Z.eq_dec r (2 ^ 53)) as [->|K]; [|exists r, s; lia]. exists (2 ^ 52), (s + 1). split; [lia|]. split; [lia|].
      rewrite Z.pow_add_r by lia. rewrite <- R. change (2 ^ 53) with (2 ^ 52 * 2). lia.
Qed.
Lemma unit_one : unit = ONE. Proof. reflexivity. Qed.
Lemma stored_sound m : stored m <-> sound m.
Proof.
  unfold stored, sound, nonneg. rewrite !double_f64, Forall_forall. tauto.
Qed.
Lemma half_double x : double (2 * x) -> 0 <= x -> double x.
Proof.
  intros (m & e & M & E & H) X. destruct (Z.eq_dec e 0) as [->|N].
  - rewrite Z.mul_1_r in H. exists x, 0. lia.
  - exists m, (e - 1). split; [lia|]. split; [lia|]. replace e with (1 + (e - 1)) in H by lia. rewrite Z.pow_add_r in H by lia. change (2 ^ 1) with 2 in H. lia.
Qed.
Lemma one_half : exists h, ONE = h * 2 /\ 0 < h /\ f64 h.
Proof.
  exists (1 * 2 ^ 1073). split; [rewrite <- unit_one; unfold unit; change 1074 with (1073 + 1); rewrite Z.pow_add_r by lia; lia|]. split; [reflexivity|].
  apply f64_scaled; lia.
Qed.
Lemma limit_far sgl p d dtl : 0 <= sgl -> (4 | sgl) -> 0 <= p -> 0 <= d -> 0 < p \/ 0 < d -> far p d -> 0 <= dtl ->
  f64 sgl -> limit_of sgl (fraction_of p d) dtl <= rnd (sgl / 4 * dtl) 1.
Proof.
  intros G (q & ->) P D PD F T G4. pose proof one_pos as O1. rewrite Z.div_mul by lia. assert (Q : 0 <= q) by lia.
  assert (D2 : double (q * 2)) by (apply half_double; [apply double_f64; replace (2 * (q * 2)) with (q * 4) by lia; exact G4|lia]).
  assert (D1 : double q) by (apply half_double; [replace (2 * q) with (q * 2) by lia; exact D2|lia]).
  apply double_f64 in D1, D2. destruct one_half as (h & E & H0 & HF).
  assert (FR : 0 <= fraction_of p d <= h).
  { unfold fraction_of, far in *. destruct (Z.leb_spec p d); unfold f_div; (split; [apply rnd_nonneg; nia|]).
    - rewrite <- (rnd_id h d ltac:(lia) HF). apply rnd_mono; nia.
    - rewrite <- (rnd_id h p ltac:(lia) HF). apply rnd_mono; nia. }
  set (f := fraction_of p d) in *. clearbody f.
  assert (S1 : 0 <= f_mul (q * 4) f <= q * 2).
  { split; [apply mul_nonneg; lia|]. etransitivity; [apply (mul_mono _ _ (q * 4) h); lia|].
    replace (f_mul (q * 4) h) with (rnd ((q * 2) * ONE) ONE) by (unfold f_mul; f_equal; lia). rewrite rnd_id; [lia|exact O1|exact D2]. }
  assert (S2 : 0 <= f_mul (f_mul (q * 4) f) f <= q).
  { split; [apply mul_nonneg; lia|]. etransitivity; [apply (mul_mono _ _ (q * 2) h); lia|].
    replace (f_mul (q * 2) h) with (rnd (q * ONE) ONE) by (unfold f_mul; f_equal; lia). rewrite rnd_id; [lia|exact O1|exact D1]. }
  unfold limit_of. etransitivity; [apply (mul_mono _ _ q (f_of dtl)); [exact S2|unfold f_of; nia]|].
  unfold f_mul, f_of. rewrite Z.mul_assoc, rnd_int by lia. reflexivity.
Qed.
Lemma no_reset now o m : st_reset m = false -> after_reset now o m = m.
Proof. intros H. unfold after_reset. rewrite H. reflexivity. Qed.
Lemma compared_delay m : delay_at (st_delay m) (st_ix m) = compared m.
Proof. reflexivity. Qed.

(** ** C95 *)
(** One update.  Within ten seconds of the last one nothing changes; otherwise the new price lies
    between the old price and the oracle price, differs from the old one by at most the growth
    limit for the seconds passed (600 at most), a quarter of that when the delay price is not
    within a factor of two, and the time is recorded.  Settings never change. *)
Theorem C95_update now o m m' : stored m -> double o -> st_reset m = false -> update now o m = Some m' ->
  let dt := now - st_last m in
  let g := st_sgl m * Z.min dt 600 in
  stored m' /\ st_reset m' = false /\ st_sgl m' = st_sgl m /\ st_dgl m' = st_dgl m /\ st_interval m' = st_interval m /\
  (dt < 10 -> m' = m) /\
  (10 <= dt ->
     st_last m' = now /\
     Z.min (st_price m) o <= st_price m' <= Z.max (st_price m) o /\
     rises (st_price m) (st_price m') g /\ falls (st_price m) (st_price m') g /\
     (far (st_price m) (compared m') -> (4 | st_sgl m) ->
        let q := st_sgl m / 4 * Z.min dt 600 in
        rises (st_price m) (st_price m') q /\ falls (st_price m) (st_price m') q)).
Proof.
  intros S O R U. apply stored_sound in S. apply double_f64 in O. destruct (update_inv now o m m' O S U) as (S' & A1 & A2 & A3 & A4 & A5 & E & L).
  rewrite (no_reset now o m R) in *. cbv zeta in *. unfold elapsed in *.
  split; [apply stored_sound; exact S'|]. split; [congruence|]. split; [exact A1|]. split; [exact A2|]. split; [exact A3|].
  split; [intros D; apply E; lia|]. intros D. destruct (L ltac:(lia)) as (d & D0 & T & DC & PD & P). clear L E.
  rewrite Z.max_r in P by lia. rewrite compared_delay in DC. subst d. split; [exact T|].
  destruct S as (SP & _ & _ & _ & SG & _). set (p := st_price m) in *. assert (P0 : 0 <= p) by apply SP. set (t := Z.min (now - st_last m) 600) in *. assert (T0 : 0 <= t) by lia.
  destruct (limit_le (st_sgl m) p (compared m') t SG P0 D0 PD T0) as [L0 L1]. assert (G0 : 0 <= st_sgl m) by apply SG.
  assert (O0 : 0 <= o) by apply O.
  rewrite P. destruct (clamp_between o p _ O0 SP L0) as (B & _ & _). split; [exact B|]. unfold rises, falls, prec. rewrite unit_one.
  split; [apply step_up; try assumption; [lia|nia]|]. split; [apply step_down; try assumption; [lia|nia]|].
  intros F M. pose proof (limit_far (st_sgl m) p (compared m') t G0 M P0 D0 PD F T0 SG) as LF.
  assert (0 <= st_sgl m / 4 * t) by (apply Z.mul_nonneg_nonneg; [apply Z.div_pos; lia|exact T0]).
  split; [apply step_up; try assumption; lia|apply step_down; try assumption; lia].
Qed.
(** A pending reset takes the oracle price, once it is positive. *)
Theorem C95_reset now o m m' : st_reset m = true -> 0 < o -> update now o m = Some m' ->
  st_price m' = o /\ st_last m' = now /\ st_reset m' = false /\ st_delay m' = repeat o 24.
Proof.
  intros R O U. unfold update in U. cbv zeta in U. assert (E : st_reset m && (0 <? o) = true) by (rewrite R; apply Z.ltb_lt; exact O). rewrite E in U.
  cbn [reset_to st_last] in U. replace (Z.max 0 (now - now)) with 0 in U by lia. apply some_inj in U. subst m'. cbn [reset_to st_price st_last st_reset st_delay].
  split; [reflexivity|]. split; [reflexivity|]. split; [|reflexivity]. apply negb_false_iff, Z.ltb_lt, O.
Qed.
(** With a positive price and a delay interval set, updates go through: only a gap of some 136
    years, that overflows the time accumulator, stops them. *)
Theorem C95_succeeds now o m : 0 < st_price m -> 0 < st_interval m -> 0 <= st_acc_t m -> st_acc_t m + Z.max 0 (now - st_last m) < 2 ^ 32 ->
  exists m', update now o m = Some m'.
Proof.
  intros P I A T. unfold update. cbv zeta.
  set (m1 := if st_reset m && (0 <? o) then reset_to o now m else m).
  assert (K : 0 < st_price m1 /\ 0 < st_interval m1 /\ 0 <= st_acc_t m1 /\ st_acc_t m1 + Z.max 0 (now - st_last m1) < 2 ^ 32).
  { unfold m1. destruct (st_reset m && (0 <? o)) eqn:E; [|split; [exact P|split; [exact I|split; [exact A|exact T]]]].
    apply andb_true_iff in E as [_ E]. apply Z.ltb_lt in E. cbn [reset_to st_price st_interval st_acc_t st_last]. lia. }
  clearbody m1. clear P I A T m. destruct K as (P & I & A & T). set (dt := Z.max 0 (now - st_last m1)) in *. destruct (Z.ltb_spec dt 10) as [D|D]; [eexists; reflexivity|].
  rewrite (Z.mod_small dt) by lia.
  replace (2 ^ 32 <=? st_acc_t m1 + dt) with false by (symmetry; apply Z.leb_gt; lia).
  replace (st_interval m1 =? 0) with false by (symmetry; apply Z.eqb_neq; lia). cbn [orb].
  assert (N : forall ix, exists L acc t, (if ix =? st_ix m1 then Some (st_delay m1, f_add (st_acc m1) (f_mul o (f_of (Z.min dt 600))), st_acc_t m1 + dt)
     else let* L := next_delays m1 (24 * st_interval m1 <? dt) ix (f_add (st_acc m1) (f_mul o (f_of (Z.min dt 600)))) (st_acc_t m1 + dt) in Some (L, 0, 0)) = Some (L, acc, t)).
  { intros ix. destruct (ix =? st_ix m1); [do 3 eexists; reflexivity|]. unfold next_delays.
    replace (st_acc_t m1 + dt =? 0) with false by (symmetry; apply Z.eqb_neq; lia). do 3 eexists; reflexivity. }
  destruct (N ((now / st_interval m1) mod 24)) as (L & acc & t & ->).
  replace (st_price m1 =? 0) with false by (symmetry; apply Z.eqb_neq; lia). cbn [andb]. eexists; reflexivity.
Qed.

(** The delay prices: an update within one delay interval leaves them as they are.  At the end of an interval a number of them take one new value, which
    differs from the latest one by at most the delay growth limit, and lies between it and an average of the oracle prices; the rest are unchanged. *)
Definition latest (m : spm) : Z := nth (Z.to_nat (if st_ix m =? 0 then 23 else st_ix m - 1)) (st_delay m) 0.
Definition all_double (m : spm) : Prop := (forall d, In d (st_delay m) -> double d) /\ double (st_dgl m).
Lemma nth_map_at {A B} (f : A -> B) L d d' i : (i < length L)%nat -> nth i (map f L) d' = f (nth i L d).
Proof. intros H. rewrite (nth_indep _ d' (f d)) by (rewrite map_length; exact H). apply map_nth. Qed.
Lemma fill_some full a b v L i : length L = 24%nat -> length (fill full a b v L) = 24%nat /\ (nth i (fill full a b v L) 0 = nth i L 0 \/ nth i (fill full a b v L) 0 = v).
Proof.
  intros N. unfold fill. split; [rewrite map_length, combine_length, seq_length, N; reflexivity|]. destruct (Nat.lt_ge_cases i 24) as [I|I].
  - rewrite (nth_map_at _ _ (0%nat, 0)) by (rewrite combine_length, seq_length, N; exact I).
    rewrite combine_nth by (rewrite seq_length, N; reflexivity). cbv zeta. destruct (full || _); [right|left]; reflexivity.
  - left. rewrite !nth_overflow; [reflexivity|lia|]. rewrite map_length, combine_length, seq_length, N. exact I.
Qed.
Lemma nth_double L i : (forall d, In d L -> double d) -> double (nth i L 0).
Proof. intros H. destruct (nth_in_or_default i L 0) as [I| ->]; [apply H, I|]. exists 0, 0. lia. Qed.
Lemma in_nth_all (L : list Z) (P : Z -> Prop) : (forall i, P (nth i L 0)) -> forall d, In d L -> P d.
Proof. intros H d I. apply (In_nth _ _ 0) in I as (i & _ & <-). apply H. Qed.
Theorem C95_delay now o m m' : stored m -> all_double m -> length (st_delay m) = 24%nat -> double o -> st_reset m = false -> update now o m = Some m' ->
  length (st_delay m') = 24%nat /\ all_double m' /\
  (st_delay m' = st_delay m \/
   st_ix m' <> st_ix m /\ exists v, (forall i, nth i (st_delay m') 0 = nth i (st_delay m) 0 \/ nth i (st_delay m') 0 = v) /\
     rises (latest m) v (st_dgl m) /\ falls (latest m) v (st_dgl m) /\
     exists average, 0 <= average /\ Z.min (latest m) average <= v <= Z.max (latest m) average).
Proof.
  intros S [AD AG] N O R U. apply stored_sound in S. apply double_f64 in O. unfold update in U. cbv zeta in U. rewrite R in U. cbn [andb] in U.
  destruct (Z.ltb_spec (Z.max 0 (now - st_last m)) 10) as [D|D]; [apply some_inj in U; subst m'; split; [exact N|]; split; [split; assumption|left; reflexivity]|].
  destruct (_ || _) eqn:G; [discriminate|].
  set (ix := (now / st_interval m) mod 24) in *. clearbody ix. set (dtl := Z.min (Z.max 0 (now - st_last m)) 600) in *.
  set (at' := st_acc_t m + Z.max 0 (now - st_last m) mod 2 ^ 32) in *. set (ac := f_add (st_acc m) (f_mul o (f_of dtl))) in *.
  assert (A0 : 0 <= ac /\ 0 <= at').
  { destruct S as (_ & _ & A & B & _). pose proof (Z.mod_pos_bound (Z.max 0 (now - st_last m)) (2 ^ 32) ltac:(reflexivity)). split; [|unfold at'; lia]. unfold ac, f_add.
    apply rnd_nonneg; [lia|]. pose proof one_pos. assert (0 <= f_mul o (f_of dtl)) by (apply mul_nonneg; [apply O|unfold f_of; apply Z.mul_nonneg_nonneg; unfold dtl; lia]). lia. }
  clearbody ac at'. destruct (Z.eqb_spec ix (st_ix m)) as [E|E].
  - destruct (_ && _); [discriminate|]. apply some_inj in U. subst m'. cbn [st_delay st_dgl st_ix]. split; [exact N|]. split; [split; assumption|left; reflexivity].
  - unfold next_delays in U. destruct (Z.eqb_spec at' 0) as [T|T]; [discriminate|]. destruct (_ && _); [discriminate|]. apply some_inj in U. subst m'. unfold all_double. cbn [st_delay st_dgl st_ix].
    change (delay_at (st_delay m) (if st_ix m =? 0 then 23 else st_ix m - 1)) with (latest m).
    set (av := f_div ac (f_of at')). assert (AV : f64 av). { unfold av, f_div, f_of. pose proof one_pos. apply rnd_f64; nia. }
    assert (LD : f64 (latest m)) by (apply double_f64; unfold latest; apply nth_double, AD). apply double_f64 in AG as GF.
    set (v := growth_clamped av (latest m) (st_dgl m)). assert (VD : double v) by (apply double_f64; unfold v; apply clamp_f64; [exact AV|exact LD|apply GF]).
    assert (F : forall full i, length (fill full (st_ix m) ix v (st_delay m)) = 24%nat /\
       (nth i (fill full (st_ix m) ix v (st_delay m)) 0 = nth i (st_delay m) 0 \/ nth i (fill full (st_ix m) ix v (st_delay m)) 0 = v)) by (intros; apply fill_some; exact N).
    match goal with |- context [fill ?b _ _ _ _] => set (full := b) in * end. clearbody full. specialize (F full).
    split; [apply (F 0%nat)|]. split; [split; [|exact AG]; apply in_nth_all; intros i; destruct (F i) as [_ [->| ->]]; [apply nth_double, AD|exact VD]|].
    right. split; [exact E|]. exists v. split; [intros i; apply F|]. assert (LR : 0 <= st_dgl m <= rnd (st_dgl m) 1) by (split; [apply GF|destruct GF as [_ ->]; lia]).
    split; [unfold rises, prec; rewrite unit_one; apply step_up; try assumption; [apply AV|lia]|].
    split; [unfold falls, prec; rewrite unit_one; apply step_down; try assumption; [apply AV|lia]|].
    exists av. split; [apply AV|]. destruct (clamp_between av (latest m) (st_dgl m) ltac:(apply AV) LD ltac:(lia)) as (B & _). exact B.
Qed.

(** ** C96 *)
(** Any number of updates, the last of them [T] seconds after the last one before: *)
Definition compound (p p' L T : Z) : Prop := p' * (unit * prec) ^ T <= Z.max p (2 ^ 53) * ((unit + L) * (prec + 1)) ^ T.
Lemma bernoulli L n : 0 <= L -> 0 <= n -> (unit + L * n) * unit ^ n <= (unit + L) ^ n * unit.
Proof.
  intros HL. revert n. apply natlike_ind.
  - rewrite !Z.pow_0_r. lia.
  - intros n N IH. rewrite !Z.pow_succ_r by exact N. pose proof (Z.pow_nonneg unit n ltac:(discriminate)) as U0.
    assert (U1 : 0 < unit) by reflexivity. set (a := unit ^ n) in *. set (b := (unit + L) ^ n) in *. set (u := unit) in *. clearbody a b u.
    replace (Z.succ n) with (n + 1) by lia. assert ((u + L * n) * a * (u + L) <= b * u * (u + L)) by (apply Z.mul_le_mono_nonneg_r; lia).
    assert (0 <= L * L * n * a) by (apply Z.mul_nonneg_nonneg; [apply Z.mul_nonneg_nonneg; [nia|lia]|exact U0]). nia.
Qed.
(** the price is at least [p * (1 - L * T)], up to rounding each second *)
Definition dwindle (p p' L T : Z) : Prop := p * (unit * prec - T * (L * prec + unit)) - T * (unit * prec) <= p' * (unit * prec).
Lemma unit_pos : 0 < unit. Proof. reflexivity. Qed.
Lemma prec_pos : 0 < prec. Proof. reflexivity. Qed.
Lemma powers L n : 0 <= L -> 0 <= n -> 0 < (unit * prec) ^ n <= ((unit + L) * (prec + 1)) ^ n.
Proof.
  intros HL N. pose proof unit_pos. pose proof prec_pos. split; [apply Z.pow_pos_nonneg; nia|apply Z.pow_le_mono_l; nia].
Qed.
Lemma rises_compound p p' g L n : 0 <= L -> 1 <= n -> 0 <= g <= L * n -> rises p p' g -> compound p p' L n.
Proof.
  intros HL N G R. unfold rises, compound in *. set (P := Z.max p (2 ^ 53)) in *. assert (P0 : 0 <= P) by lia. clearbody P.
  pose proof (bernoulli L n HL ltac:(lia)) as B. replace n with (Z.succ (n - 1)) in B at 2 by lia. rewrite Z.pow_succ_r in B by lia.
  replace (p' * (unit * prec) ^ n) with (p' * (unit * prec) * (unit * prec) ^ (n - 1)).
  2:{ replace n with (Z.succ (n - 1)) at 2 by lia. rewrite Z.pow_succ_r by lia. ring. }
  pose proof unit_pos as U0. pose proof prec_pos as C0. rewrite !Z.pow_mul_l.
  assert (CP : prec ^ (n - 1) <= (prec + 1) ^ (n - 1)) by (apply Z.pow_le_mono_l; lia).
  replace ((prec + 1) ^ n) with ((prec + 1) * (prec + 1) ^ (n - 1)) by (rewrite <- Z.pow_succ_r by lia; f_equal; lia).
  assert (A0 : 0 < unit ^ (n - 1)) by (apply Z.pow_pos_nonneg; lia). assert (A1 : 0 < prec ^ (n - 1)) by (apply Z.pow_pos_nonneg; lia).
  assert (B1 : 0 < (unit + L) ^ n) by (apply Z.pow_pos_nonneg; lia).
  set (a := unit ^ (n - 1)) in *. set (c := prec ^ (n - 1)) in *. set (d := (prec + 1) ^ (n - 1)) in *. set (b := (unit + L) ^ n) in *. clearbody a b c d.
  set (u := unit) in *. set (q := prec) in *. clearbody u q.
  assert (B2 : (u + L * n) * a <= b). { apply (Z.mul_le_mono_pos_r _ _ u U0). lia. }
  assert (X1 : p' * (u * q) * (a * c) <= P * ((u + g) * (q + 1)) * (a * c)) by (apply Z.mul_le_mono_nonneg_r; [nia|exact R]).
  assert (X2 : (u + g) * a <= b) by nia.
  assert (X3 : (u + g) * a * c <= b * d) by (apply Z.mul_le_mono_nonneg; nia).
  assert (X4 : P * (q + 1) * ((u + g) * a * c) <= P * (q + 1) * (b * d)) by (apply Z.mul_le_mono_nonneg_l; [nia|exact X3]).
  replace (P * ((u + g) * (q + 1)) * (a * c)) with (P * (q + 1) * ((u + g) * a * c)) in X1 by ring.
  replace (P * (b * ((q + 1) * d))) with (P * (q + 1) * (b * d)) by ring. lia.
Qed.
Lemma compound_trans p q r L n k : 0 <= L -> 0 <= n -> 0 <= k -> compound p q L n -> compound q r L k -> compound p r L (n + k).
Proof.
  intros HL N K H1 H2. unfold compound in *. destruct (powers L n HL N) as [P1 P2]. destruct (powers L k HL K) as [P3 P4]. rewrite !Z.pow_add_r by lia.
  set (un := (unit * prec) ^ n) in *. set (vn := ((unit + L) * (prec + 1)) ^ n) in *. set (uk := (unit * prec) ^ k) in *. set (vk := ((unit + L) * (prec + 1)) ^ k) in *. clearbody un vn uk vk.
  assert (H3 : Z.max q (2 ^ 53) * un <= Z.max p (2 ^ 53) * vn).
  { destruct (Z.max_spec q (2 ^ 53)) as [[_ ->]|[_ ->]]; [|exact H1]. apply Z.mul_le_mono_nonneg; lia. }
  set (P := Z.max p (2 ^ 53)) in *. set (Q := Z.max q (2 ^ 53)) in *. assert (0 <= P /\ 0 <= Q) by lia. clearbody P Q.
  assert (X1 : r * uk * un <= Q * vk * un) by (apply Z.mul_le_mono_nonneg_r; [lia|exact H2]).
  assert (X2 : Q * un * vk <= P * vn * vk) by (apply Z.mul_le_mono_nonneg_r; [lia|exact H3]). lia.
Qed.
Lemma falls_dwindle p p' g L n : 0 <= p -> 1 <= n -> 0 <= g <= L * n -> falls p p' g -> dwindle p p' L n.
Proof.
  intros P N G F. unfold falls, dwindle in *. pose proof unit_pos as U0. pose proof prec_pos as C0. set (u := unit) in *. set (q := prec) in *. clearbody u q.
  assert (X : p * (u * q - n * (L * q + u)) <= p * (u * q - g * q - u)) by (apply Z.mul_le_mono_nonneg_l; nia). nia.
Qed.
Lemma dwindle_trans p q r L n k : 0 <= p -> 0 <= r -> 0 <= L -> 0 <= n -> 0 <= k -> dwindle p q L n -> dwindle q r L k -> dwindle p r L (n + k).
Proof.
  intros P R HL N K H1 H2. unfold dwindle in *. pose proof unit_pos as U0. pose proof prec_pos as C0.
  assert (M0 : 0 < unit * prec) by nia. set (M := unit * prec) in *. assert (W0 : 0 <= L * prec + unit) by nia. set (W := L * prec + unit) in *. clearbody M W. clear U0 C0.
  destruct (Z.le_gt_cases (M - k * W) 0) as [D|D].
  - assert (M - (n + k) * W <= 0) by nia. assert (p * (M - (n + k) * W) <= 0) by nia. nia.
  - apply (Z.mul_le_mono_pos_r _ _ M M0).
    assert (X1 : (p * (M - n * W) - n * M) * (M - k * W) <= q * M * (M - k * W)) by (apply Z.mul_le_mono_nonneg_r; [lia|exact H1]).
    assert (X2 : (q * (M - k * W) - k * M) * M <= r * M * M) by (apply Z.mul_le_mono_nonneg_r; [lia|exact H2]).
    assert (X3 : 0 <= p * (n * k * (W * W))) by (apply Z.mul_nonneg_nonneg; [exact P|apply Z.mul_nonneg_nonneg; nia]).
    assert (X4 : 0 <= n * k * (M * W)) by (apply Z.mul_nonneg_nonneg; nia). nia.
Qed.
(** Any history of updates, in order or not: the growth limit bounds the price by the time that
    has passed, whatever the oracle says and however often it is updated; and the price leaves
    no band that it and the oracle are in. *)
Theorem C96_histories H m m' : stored m -> (forall now o, In (now, o) H -> double o) -> st_reset m = false -> updates H m = Some m' ->
  let T := st_last m' - st_last m in
  0 <= T /\ compound (st_price m) (st_price m') (st_sgl m) T /\ dwindle (st_price m) (st_price m') (st_sgl m) T /\
  (forall lo hi, lo <= st_price m <= hi -> (forall now o, In (now, o) H -> lo <= o <= hi) -> lo <= st_price m' <= hi).
Proof.
  revert m. induction H as [|[now o] H IH]; intros m S O R U.
  - cbn [updates] in U. apply some_inj in U. subst m'. cbv zeta. rewrite Z.sub_diag. split; [lia|]. unfold compound, dwindle. rewrite !Z.pow_0_r. split; [lia|]. split; [lia|]. auto.
  - cbn [updates] in U. destruct (update now o m) as [m1|] eqn:U1; [|discriminate].
    destruct (C95_update now o m m1 S (O now o (or_introl eq_refl)) R U1) as (S1 & R1 & G1 & _ & _ & A & B).
    specialize (IH m1 S1 (fun n x I => O n x (or_intror I)) R1 U). cbv zeta in *. destruct IH as (T0 & CP & DW & BD).
    assert (P0 : 0 <= st_price m) by (destruct S as (S & _); apply double_f64 in S; apply S).
    assert (P2 : 0 <= st_price m') .
    { apply (BD 0 (Z.max (st_price m1) (fold_right Z.max 0 (map snd H)))).
      - destruct S1 as (S1 & _); apply double_f64 in S1. destruct S1. lia.
      - intros n x I. split; [apply (proj1 (double_f64 x) (O n x (or_intror I)))|]. clear - I. induction H as [|[n' y] H IH]; [destruct I|]. cbn [map fold_right snd]. destruct I as [I|I]; [inversion I; subst; lia|specialize (IH I); lia]. }
    assert (GL : 0 <= st_sgl m) by (destruct S as (_ & _ & _ & _ & S & _); apply double_f64 in S; apply S).
    rewrite G1 in *. destruct (Z.lt_ge_cases (now - st_last m) 10) as [D|D].
    + rewrite (A D) in *. split; [exact T0|]. split; [exact CP|]. split; [exact DW|]. intros lo hi P F. apply BD; [exact P|]. intros n x I. apply (F n x). right. exact I.
    + destruct (B D) as (LT & BT & RS & FS & _). clear A B.
      assert (LM : 0 <= st_sgl m * Z.min (now - st_last m) 600 <= st_sgl m * (now - st_last m)) by nia.
      replace (st_last m' - st_last m) with ((now - st_last m) + (st_last m' - st_last m1)) by lia.
      split; [lia|]. split; [|split].
      * eapply compound_trans; [exact GL|lia|exact T0| |exact CP]. eapply rises_compound; [exact GL|lia|exact LM|exact RS].
      * eapply dwindle_trans; [exact P0|exact P2|exact GL|lia|exact T0| |exact DW]. eapply falls_dwindle; [exact P0|lia|exact LM|exact FS].
      * intros lo hi P F. apply BD; [pose proof (F now o (or_introl eq_refl)); lia|]. intros n x I. apply (F n x). right. exact I.
Qed.

(** ** refuted *)
(** Not every update goes through: one at price zero, when the price has been zero so far, panics
    (bounds that are not numbers), and with it the instruction that refreshes the bank's
    interest or the market's funding. *)
Definition zero_model : spm := mkSpm 0 0 (repeat 0 24) 0 0 3600 0 0 0 true.
Theorem C95_zero_refuted : ~ (forall now o m, stored m -> double o -> 0 < st_interval m ->
    st_acc_t m + Z.max 0 (now - st_last m) < 2 ^ 32 -> exists m', update now o m = Some m').
Proof.
  intros A. destruct (A 100 0 zero_model) as (m' & U).
  - apply stored_sound. unfold sound, zero_model. cbn [st_price st_delay st_acc st_acc_t st_sgl st_dgl]. assert (Z0 : f64 0) by (apply f64_small; lia).
    split; [exact Z0|]. split; [apply Forall_forall; intros x I; apply repeat_spec in I; lia|]. split; [lia|]. split; [lia|]. split; [exact Z0|lia].
  - apply double_f64, f64_small. lia.
  - reflexivity.
  - reflexivity.
  - assert (K : update 100 0 zero_model = None) by (vm_compute; reflexivity). rewrite K in U. discriminate U.
Qed.
(** A price that never moves does not keep the delay price in place.  The time since the last
    update counts in full when the average is taken, but the price counts for ten minutes at most:
    with one update an hour the average is a sixth of the price.  The delay price then falls
    by its growth limit every hour: twelve such falls and it is below half the price, so the
    stable price may move at a quarter of its speed only.  The example has one update every
    25 hours, so that each of them renews all 24 delay prices. *)
Definition c100 : Z := 100 * unit.
Definition default_model (p now : Z) : spm := mkSpm p now (repeat p 24) 0 0 3600 (16106127 * 2 ^ 1046) (10307922 * 2 ^ 1039) 0 false.
Definition hourly (p : Z) (n : nat) : list (Z * Z) := map (fun k => (3600 * Z.of_nat k, p)) (seq 1 n).
Lemma c100_double : double c100. Proof. exists 100, 1074. split; [lia|]. split; [lia|reflexivity]. Qed.
Lemma default_stored p now : double p -> stored (default_model p now).
Proof.
  intros D. apply stored_sound. apply double_f64 in D. unfold sound, default_model. cbn [st_price st_delay st_acc st_acc_t st_sgl st_dgl].
  split; [exact D|]. split; [apply Forall_forall; intros x I; apply repeat_spec in I; subst; apply D|]. split; [lia|]. split; [lia|]. split; [apply f64_scaled; lia|discriminate].
Qed.
Lemma refuted_run : exists m', updates (hourly c100 1) (default_model c100 0) = Some m' /\ In (nth 0 (st_delay m') 0) (st_delay m') /\ nth 0 (st_delay m') 0 <> c100.
Proof.
  assert (K : match updates (hourly c100 1) (default_model c100 0) with Some m' => Nat.eqb (length (st_delay m')) 24 && negb (nth 0 (st_delay m') 0 =? c100) | None => false end = true)
    by (vm_compute; reflexivity).
  destruct (updates (hourly c100 1) (default_model c100 0)) as [m'|]; [|discriminate]. exists m'. split; [reflexivity|].
  apply andb_true_iff in K as [K1 K2]. apply PeanoNat.Nat.eqb_eq in K1. apply negb_true_iff, Z.eqb_neq in K2. split; [apply nth_In; rewrite K1; lia|exact K2].
Qed.
Theorem C96_delay_refuted : ~ (forall H m m' p, stored m -> double p -> st_reset m = false -> st_price m = p -> (forall d, In d (st_delay m) -> d = p) ->
    (forall now o, In (now, o) H -> o = p) -> updates H m = Some m' -> forall d, In d (st_delay m') -> d = p).
Proof.
  intros A. destruct refuted_run as (m' & U & I & N). apply N.
  apply (A (hourly c100 1) (default_model c100 0) m' c100 (default_stored _ _ c100_double) c100_double eq_refl eq_refl); [| |exact U|exact I].
  - clear. intros d I. apply repeat_spec in I. exact I.
  - clear. intros now o I. apply in_map_iff in I as (k & K & _). apply pair_equal_spec in K as [_ <-]. reflexivity.
Qed.
Definition seldom (p : Z) (n : nat) : list (Z * Z) := map (fun k => (90000 * Z.of_nat k, p)) (seq 1 n).
Example C96_delay_halved : exists m', updates (seldom c100 12) (default_model c100 0) = Some m' /\
  st_price m' = c100 /\ st_last m' = 12 * 90000 /\ 2 * compared m' <= c100.
Proof.
  assert (K : match updates (seldom c100 12) (default_model c100 0) with Some m' => (st_price m' =? c100) && (st_last m' =? 12 * 90000) && (2 * compared m' <=? c100) | None => false end = true)
    by (vm_cast_no_check (eq_refl true)).
  destruct (updates (seldom c100 12) (default_model c100 0)) as [m'|]; [|discriminate]. exists m'. split; [reflexivity|].
  apply andb_true_iff in K as [K K3]. apply andb_true_iff in K as [K1 K2]. apply Z.eqb_eq in K1, K2. apply Z.leb_le in K3. split; [exact K1|]. split; [exact K2|exact K3].
Qed.

(** ** examples *)
Lemma runs (x : option spm) (f : spm -> bool) : match x with Some m => f m | None => false end = true -> exists m, x = Some m /\ f m = true.
Proof. destruct x as [m|]; [|discriminate]. intros H. exists m. auto. Qed.
(** price 100, oracle 200: after a minute the price is between 101 and 102; at half that
    price the oracle moves it to between 98 and 99; after five seconds it is unchanged *)
Example C95_example : let m := default_model c100 0 in
  stored m /\ st_reset m = false /\ double (2 * c100) /\ double (50 * unit) /\
  (exists m', update 60 (2 * c100) m = Some m' /\ (101 * unit <? st_price m') && (st_price m' <? 102 * unit) = true) /\
  (exists m', update 60 (50 * unit) m = Some m' /\ (98 * unit <? st_price m') && (st_price m' <? 99 * unit) = true) /\
  update 5 (2 * c100) m = Some m.
Proof.
  cbv zeta. split; [apply default_stored, c100_double|]. split; [reflexivity|].
  split; [exists 200, 1074; split; [lia|]; split; [lia|reflexivity]|]. split; [exists 50, 1074; split; [lia|]; split; [lia|reflexivity]|].
  split; [apply runs; vm_compute; reflexivity|]. split; [apply runs; vm_compute; reflexivity|]. vm_compute. reflexivity.
Qed.
(** an hour without updates: the delay price of that hour falls by six percent *)
Example C95_delay_example : let m := default_model c100 0 in stored m /\ all_double m /\ length (st_delay m) = 24%nat /\ double (2 * c100) /\
  exists m', update 3600 (2 * c100) m = Some m' /\ (93 * unit <? nth 0 (st_delay m') 0) && (nth 0 (st_delay m') 0 <? 95 * unit) && (nth 1 (st_delay m') 0 =? c100) = true.
Proof.
  cbv zeta. split; [apply default_stored, c100_double|]. split.
  { unfold all_double, default_model. cbn [st_delay st_dgl]. split; [intros d I; apply repeat_spec in I; subst d; apply c100_double|]. exists 16106127, 1046. split; [lia|]. split; [lia|reflexivity]. }
  split; [reflexivity|]. split; [exists 200, 1074; split; [lia|]; split; [lia|reflexivity]|]. apply runs; vm_compute; reflexivity.
Qed.
(** the delay price is at 40, so the price moves at a quarter of the speed at most *)
Definition far_model : spm := mkSpm c100 0 (repeat (40 * unit) 24) 0 0 3600 0 (10307922 * 2 ^ 1039) 0 false.
Example C95_far_example : stored far_model /\ (4 | st_sgl far_model) /\
  exists m', update 600 (2 * c100) far_model = Some m' /\ (2 * compared m' <=? st_price far_model) && (102 * unit <? st_price m') && (st_price m' <? 103 * unit) = true.
Proof.
  split.
  { apply stored_sound. unfold sound, far_model. cbn [st_price st_delay st_acc st_acc_t st_sgl st_dgl].
    split; [apply double_f64, c100_double|]. split; [apply Forall_forall; intros x I; apply repeat_spec in I; subst; discriminate|]. split; [lia|]. split; [lia|]. split; [apply f64_scaled; lia|lia]. }
  split; [unfold far_model; cbn [st_sgl]; exists (10307922 * 2 ^ 1037); reflexivity|].
  apply runs. vm_compute. reflexivity.
Qed.
Example C95_reset_example : exists m', update 1000 c100 zero_model = Some m' /\ (st_price m' =? c100) = true.
Proof. apply runs. vm_compute. reflexivity. Qed.
(** three updates, one of them late *)
Definition late_updates : list (Z * Z) := [(300, 200 * unit); (200, 100 * unit); (600, 300 * unit)].
Example C96_example : (forall now o, In (now, o) late_updates -> double o) /\
  exists m', updates late_updates (default_model c100 0) = Some m' /\ (st_last m' =? 600) && (117 * unit <? st_price m') && (st_price m' <? 118 * unit) = true.
Proof.
  split; [|apply runs; vm_compute; reflexivity].
  assert (D : forall k, 0 <= k < 1000 -> double (k * unit)) by (intros k K; exists k, 1074; split; [lia|]; split; [lia|reflexivity]).
  unfold late_updates. intros now o [E|[E|[E|[]]]]; apply pair_equal_spec in E as [_ <-]; apply D; lia.
Qed.
Print Assumptions C95_update.
Print Assumptions C95_delay.
Print Assumptions C95_reset.
Print Assumptions C95_succeeds.
Print Assumptions C96_histories.
Print Assumptions C95_zero_refuted.
Print Assumptions C96_delay_refuted.
