(** Facts about the interest curve and the index update. *)
From Coq Require Import ZArith Lia Bool.
From Verif Require Import Fixed Interest InterestSpec.
Open Scope Z_scope.

Lemma some_inj {A} (x y : A) : Some x = Some y -> x = y.
Proof. intros [= E]. exact E. Qed.

Lemma cdiv_inv a b c : cdiv a b = Some c -> c = fdiv a b /\ b <> 0.
Proof. unfold cdiv. destruct (Z.eqb_spec b 0); [discriminate|]. intros [= <-]. auto. Qed.

Lemma fdiv_signed a b : 0 < b ->
  (0 <= a -> 0 <= fdiv a b /\ fdiv a b * b <= a * fone < fdiv a b * b + b) /\
  (a <= 0 -> fdiv a b <= 0 /\ fdiv a b * b - b < a * fone <= fdiv a b * b).
Proof.
  intros Hb. split; intros Ha.
  - split; [apply fdiv_nonneg; lia|]. apply fdiv_pos_bounds; lia.
  - assert (E : fdiv a b = - fdiv (- a) b) by (rewrite fdiv_opp_l; lia). rewrite E.
    pose proof (fdiv_nonneg (- a) b ltac:(lia) Hb). pose proof (fdiv_pos_bounds (- a) b ltac:(lia) Hb). lia.
Qed.

(** one segment of the curve *)
Lemma segment_facts xa ya xb yb u v : 0 <= xa -> xa < xb -> xb <= fone -> xa <= u <= xb ->
  v = ya + fmul (fdiv (yb - ya) (xb - xa)) (u - xa) ->
  between ya yb v /\ near_line xa ya xb yb u v 2.
Proof.
  intros H0 Hx H1 Hu ->. destruct (fdiv_signed (yb - ya) (xb - xa) ltac:(lia)) as [Hp Hn].
  set (s := fdiv (yb - ya) (xb - xa)) in *. pose proof (fmul_bounds s (u - xa)) as [B1 B2].
  set (m := fmul s (u - xa)) in *. pose proof fone_pos as Hf. unfold between, near_line.
  replace (ya + m - ya) with m by lia.
  remember (u - xa) as w eqn:Ew. remember (xb - xa) as d eqn:Ed. remember (yb - ya) as y eqn:Ey.
  assert (Hw : 0 <= w <= d) by lia. assert (Hd : 0 < d <= fone) by lia.
  clearbody m. destruct (Z.le_ge_cases 0 y) as [Hy|Hy].
  - destruct (Hp Hy) as (S0 & S1 & S2). clear Hp Hn. clearbody s.
    assert (Q1 : s * w <= s * d) by (apply Z.mul_le_mono_nonneg_l; lia).
    assert (M0 : 0 <= m) by (assert (0 <= s * w) by (apply Z.mul_nonneg_nonneg; lia); nia).
    assert (A1' : m <= y) by nia.
    assert (Q2 : s * d * w <= y * fone * w) by (apply Z.mul_le_mono_nonneg_r; lia).
    assert (Q3 : m * fone * d <= s * w * d) by (apply Z.mul_le_mono_nonneg_r; lia).
    assert (A2' : m * d <= y * w) by (apply (Z.mul_le_mono_pos_r _ _ fone); lia).
    assert (Q4 : y * fone * w <= (s * d + d) * w) by (apply Z.mul_le_mono_nonneg_r; lia).
    assert (Q5 : s * w * d < (m * fone + fone) * d) by (apply Z.mul_lt_mono_pos_r; lia).
    assert (Q6 : d * w <= d * fone) by (apply Z.mul_le_mono_nonneg_l; lia).
    assert (A3' : y * w < m * d + 2 * d) by (apply (Z.mul_lt_mono_pos_r fone); lia).
    split; [lia|]. apply Z.abs_lt. lia.
  - destruct (Hn Hy) as (S0 & S1 & S2). clear Hp Hn. clearbody s.
    assert (Q1 : s * d <= s * w) by (apply Z.mul_le_mono_nonpos_l; lia).
    assert (M0 : m <= 0) by (assert (s * w <= 0) by (apply Z.mul_nonpos_nonneg; lia); nia).
    assert (A1' : y <= m) by nia.
    assert (Q3 : m * fone * d <= s * w * d) by (apply Z.mul_le_mono_nonneg_r; lia).
    assert (Q4 : s * d * w <= (y * fone + d) * w) by (apply Z.mul_le_mono_nonneg_r; lia).
    assert (Q6 : d * w <= d * fone) by (apply Z.mul_le_mono_nonneg_l; lia).
    assert (A2' : m * d <= y * w + d) by (apply (Z.mul_le_mono_pos_r _ _ fone); lia).
    assert (Q7 : y * fone * w <= s * d * w) by (apply Z.mul_le_mono_nonneg_r; lia).
    assert (Q5 : s * w * d < (m * fone + fone) * d) by (apply Z.mul_lt_mono_pos_r; lia).
    assert (A3' : y * w < m * d + d) by (apply (Z.mul_lt_mono_pos_r fone); lia).
    split; [lia|]. apply Z.abs_lt. lia.
Qed.

Lemma valid_iff c : ipar_valid c = true ->
  0 <= i_util0 c /\ i_util0 c <= i_util1 c /\ i_util1 c <= fone /\ 0 <= i_zero c /\ 0 <= i_rate0 c /\ 0 <= i_rate1 c /\
  0 <= i_max c /\ 0 <= i_loan c /\ (i_scale c = 0 \/ fone <= i_scale c).
Proof. unfold ipar_valid. intros H. repeat (apply andb_prop in H as [H ?]). repeat split; lia. Qed.

Lemma curve_facts c u v : ipar_valid c = true -> 0 <= u <= fone -> curve c u = Some v ->
  (u <= i_util0 c -> 0 < i_util0 c /\ between (i_zero c) (i_rate0 c) v /\ near_line 0 (i_zero c) (i_util0 c) (i_rate0 c) u v 2) /\
  (i_util0 c < u <= i_util1 c -> between (i_rate0 c) (i_rate1 c) v /\
     near_line (i_util0 c) (i_rate0 c) (i_util1 c) (i_rate1 c) u v 2) /\
  (i_util1 c < u -> between (i_rate1 c) (i_max c) v /\ near_line (i_util1 c) (i_rate1 c) fone (i_max c) u v 2).
Proof.
  intros Hv Hu H. apply valid_iff in Hv as (V0 & V1 & V2 & V3 & V4 & V5 & V6 & V7 & V8).
  unfold curve in H. assert (E : clamp01 u = u) by (unfold clamp01; lia). rewrite E in H. cbn zeta in H.
  destruct (Z.leb_spec u (i_util0 c)); [|destruct (Z.leb_spec u (i_util1 c))].
  - destruct (cdiv _ _) as [s|] eqn:D; [|discriminate]. apply cdiv_inv in D as [-> D]. apply some_inj in H.
    split; [intros _|split; lia]. split; [lia|].
    apply segment_facts; try lia. rewrite !Z.sub_0_r. symmetry. exact H.
  - destruct (cdiv _ _) as [s|] eqn:D; [|discriminate]. apply cdiv_inv in D as [-> D]. apply some_inj in H.
    split; [lia|]. split; [intros _|lia]. apply segment_facts; try lia. 
  - destruct (cdiv _ _) as [s|] eqn:D; [|discriminate]. apply cdiv_inv in D as [-> D]. apply some_inj in H.
    split; [lia|]. split; [lia|intros _]. apply segment_facts; try lia.
Qed.

Lemma curve_nonneg c u v : ipar_valid c = true -> curve c u = Some v -> 0 <= v.
Proof.
  intros Hv H. pose proof (valid_iff c Hv) as (V0 & V1 & V2 & V3 & V4 & V5 & V6 & V7 & V8).
  set (w := clamp01 u). assert (Hw : 0 <= w <= fone) by (unfold w, clamp01; pose proof fone_pos; lia).
  assert (Hc : curve c w = Some v).
  { unfold curve in *. replace (clamp01 w) with (clamp01 u); [exact H|]. unfold w, clamp01. pose proof fone_pos. lia. }
  destruct (curve_facts c w v Hv Hw Hc) as (C1 & C2 & C3). unfold between in *.
  destruct (Z_le_gt_dec w (i_util0 c)); [lia|]. destruct (Z_le_gt_dec w (i_util1 c)); lia.
Qed.

(** monotone if the configured rates are *)
Lemma curve_mono c u u' v v' : ipar_valid c = true -> i_zero c <= i_rate0 c <= i_rate1 c -> i_rate1 c <= i_max c ->
  0 <= u <= u' -> u' <= fone -> curve c u = Some v -> curve c u' = Some v' -> v <= v'.
Proof.
  intros Hv Hr Hr2 Hu Hu' H H'.
  pose proof (valid_iff c Hv) as (V0 & V1 & V2 & V3 & V4 & V5 & V6 & V7 & V8).
  pose proof (curve_facts c u v Hv ltac:(lia) H) as (C1 & C2 & C3).
  pose proof (curve_facts c u' v' Hv ltac:(lia) H') as (D1 & D2 & D3). unfold between in *.
  assert (E : clamp01 u = u) by (unfold clamp01; lia). assert (E' : clamp01 u' = u') by (unfold clamp01; lia).
  unfold curve in H, H'. rewrite E in H. rewrite E' in H'. cbn zeta in *.
  destruct (Z.leb_spec u (i_util0 c)); [|destruct (Z.leb_spec u (i_util1 c))];
  (destruct (Z.leb_spec u' (i_util0 c)); [|destruct (Z.leb_spec u' (i_util1 c))]); try lia;
  (destruct (cdiv _ _) as [s|] eqn:D in H; [|discriminate]; apply cdiv_inv in D as [-> D];
   destruct (cdiv _ _) as [s'|] eqn:D' in H'; [|discriminate]; apply cdiv_inv in D' as [-> D'];
   apply some_inj in H; apply some_inj in H'; subst v v';
   apply Z.add_le_mono_l; apply fmul_mono_r; [apply fdiv_nonneg; lia|lia]).
Qed.

(** when the curve fails *)
Lemma curve_none c u : ipar_valid c = true -> (curve c u = None <-> i_util0 c = 0 /\ u <= 0).
Proof.
  intros Hv. pose proof (valid_iff c Hv) as (V0 & V1 & V2 & V3 & V4 & V5 & V6 & V7 & V8). pose proof fone_pos as Hf.
  unfold curve. assert (Hw : 0 <= clamp01 u <= fone) by (unfold clamp01; lia).
  assert (Hz : clamp01 u <= 0 <-> u <= 0) by (unfold clamp01; lia).
  set (w := clamp01 u) in *. cbn zeta. unfold cdiv.
  destruct (Z.leb_spec w (i_util0 c)); [|destruct (Z.leb_spec w (i_util1 c))].
  - destruct (Z.eqb_spec (i_util0 c) 0); split; try congruence; try discriminate; intros; lia.
  - destruct (Z.eqb_spec (i_util1 c - i_util0 c) 0); split; try discriminate; intros; lia.
  - destruct (Z.eqb_spec (fone - i_util1 c) 0); split; try discriminate; intros; lia.
Qed.

Lemma rate_nonneg c u v : ipar_valid c = true -> interest_rate c u = Some v -> 0 <= v.
Proof.
  intros Hv H. unfold interest_rate in H. destruct (curve c u) as [w|] eqn:E; [|discriminate].
  apply curve_nonneg in E; [|exact Hv]. pose proof (valid_iff c Hv) as (_ & _ & _ & _ & _ & _ & _ & _ & V8).
  apply some_inj in H; subst v. destruct (Z.eqb_spec (i_scale c) 0); [exact E|]. apply fmul_nonneg; pose proof fone_pos; lia.
Qed.

Lemma util_facts nd nb : 0 <= nd -> 0 <= nb ->
  0 <= utilization nd nb <= fone /\ utilization nd nb * nd <= nb * fone.
Proof.
  intros Hd Hb. unfold utilization. pose proof fone_pos. destruct (Z.eqb_spec nd 0) as [->|]; [nia|].
  pose proof (fdiv_pos_bounds nb nd Hb ltac:(lia)) as [B1 B2]. pose proof (fdiv_nonneg nb nd Hb ltac:(lia)).
  split; [lia|]. nia.
Qed.

Lemma year_div x t : 0 <= x -> 0 <= t -> 
  exists q, fdiv (fmul x (of_int t)) (of_int YEAR) = q /\ 0 <= q /\ q * YEAR <= x * t < q * YEAR + YEAR.
Proof.
  intros Hx Ht. rewrite fmul_int_r. unfold fdiv, of_int. pose proof fone_pos.
  exists (x * t / YEAR). assert (0 < YEAR) by reflexivity.
  rewrite Z.quot_div_nonneg by nia. rewrite Z.div_mul_cancel_r by lia.
  split; [reflexivity|]. split; [apply Z.div_pos; nia|].
  pose proof (Z.div_mod (x * t) YEAR ltac:(lia)). pose proof (Z.mod_pos_bound (x * t) YEAR ltac:(lia)). lia.
Qed.

Lemma compute_index_facts c di bi dep bor t r :
  ipar_valid c = true -> 0 < di -> 0 < bi -> 0 <= dep -> 0 <= bor -> 0 <= t ->
  compute_index c di bi dep bor t = Some r ->
  di <= r_di r /\ bi <= r_bi r /\ 0 <= r_fees r /\ 0 <= r_borrow r /\ 0 <= r_deposit r <= r_borrow r /\
  ((r_di r - di) * dep + r_fees r * fone) * YEAR <=
    (r_bi r - bi) * bor * YEAR + bor * (YEAR + t) + t * r_borrow r.
Proof.
  intros Hv Hdi Hbi Hd Hb Ht H. unfold compute_index in H. cbn zeta in H.
  set (nd := fmul di dep) in *. set (nb := fmul bi bor) in *. set (u := utilization nd nb) in *.
  destruct (interest_rate c u) as [r0|] eqn:E; [|discriminate]. apply some_inj in H; subst r. cbn [r_di r_bi r_fees r_borrow r_deposit].
  apply rate_nonneg in E; [|exact Hv]. pose proof (valid_iff c Hv) as (_ & _ & _ & _ & _ & _ & _ & V7 & _).
  pose proof fone_pos as Hf.
  assert (Hnd : 0 <= nd) by (apply fmul_nonneg; lia). assert (Hnb : 0 <= nb) by (apply fmul_nonneg; lia).
  destruct (util_facts nd nb Hnd Hnb) as [U1 U2]. fold u in U1, U2.
  set (lf := i_loan c) in *. set (dr := fmul r0 u) in *.
  assert (Hdr : 0 <= dr) by (apply fmul_nonneg; lia).
  set (xd := fmul di dr) in *. set (xb := fmul bi (r0 + lf)) in *. set (xf := fmul nb lf) in *.
  assert (Hxd : 0 <= xd) by (apply fmul_nonneg; lia). assert (Hxb : 0 <= xb) by (apply fmul_nonneg; lia).
  assert (Hxf : 0 <= xf) by (apply fmul_nonneg; lia).
  destruct (year_div xd t Hxd Ht) as (qd & -> & Qd & D1 & D2).
  destruct (year_div xb t Hxb Ht) as (qb & -> & Qb & D3 & D4).
  destruct (year_div xf t Hxf Ht) as (qf & -> & Qf & D5 & D6).
  pose proof (fmul_bounds di dep) as [P1 P2]. fold nd in P1, P2.
  pose proof (fmul_bounds bi bor) as [P3 P4]. fold nb in P3, P4.
  pose proof (fmul_bounds r0 u) as [P5 P6]. fold dr in P5, P6.
  pose proof (fmul_bounds di dr) as [P7 P8]. fold xd in P7, P8.
  pose proof (fmul_bounds bi (r0 + lf)) as [P9 P10]. fold xb in P9, P10.
  pose proof (fmul_bounds nb lf) as [P11 P12]. fold xf in P11, P12.
  split; [lia|]. split; [lia|]. split; [lia|]. split; [lia|].
  split. { split; [lia|]. assert (dr * fone <= r0 * fone) by nia. nia. }
  replace (qd + di - di) with qd by lia. replace (qb + bi - bi) with qb by lia.
  assert (Yp : 0 < YEAR) by reflexivity. set (Y := YEAR) in *. clearbody Y.
  clearbody nd nb u dr xd xb xf. clear Hv.
  (* deposits *)
  assert (A1 : dr * (di * dep) <= r0 * (bi * bor + fone)).
  { assert (dr * (di * dep) <= dr * fone * (nd + 1)) by nia.
    assert (dr * fone * (nd + 1) <= r0 * u * (nd + 1)) by (apply Z.mul_le_mono_nonneg_r; lia).
    assert (u * (nd + 1) <= nb * fone + fone) by nia.
    assert (r0 * (u * (nd + 1)) <= r0 * (nb * fone + fone)) by (apply Z.mul_le_mono_nonneg_l; lia).
    assert (r0 * (nb * fone + fone) <= r0 * (bi * bor + fone)) by (apply Z.mul_le_mono_nonneg_l; lia).
    lia. }
  assert (A2 : qd * dep * Y * fone <= t * (r0 * (bi * bor + fone))).
  { assert (qd * Y * fone <= t * (di * dr)).
    { assert (qd * Y * fone <= xd * t * fone) by (apply Z.mul_le_mono_nonneg_r; lia).
      assert (t * (xd * fone) <= t * (di * dr)) by (apply Z.mul_le_mono_nonneg_l; lia). lia. }
    assert (qd * Y * fone * dep <= t * (di * dr) * dep) by (apply Z.mul_le_mono_nonneg_r; lia).
    assert (t * (dr * (di * dep)) <= t * (r0 * (bi * bor + fone))) by (apply Z.mul_le_mono_nonneg_l; lia).
    lia. }
  assert (A3 : qf * fone * Y * fone <= t * (bi * bor * lf)).
  { assert (qf * Y * fone <= xf * t * fone) by (apply Z.mul_le_mono_nonneg_r; lia).
    assert (t * (xf * fone) <= t * (nb * lf)) by (apply Z.mul_le_mono_nonneg_l; lia).
    assert (H1 : qf * Y * fone <= t * (nb * lf)) by lia.
    assert (H2 : qf * Y * fone * fone <= t * (nb * lf) * fone) by (apply Z.mul_le_mono_nonneg_r; lia).
    assert (H3 : t * lf * (nb * fone) <= t * lf * (bi * bor)) by (apply Z.mul_le_mono_nonneg_l; nia).
    lia. }
  assert (A4 : t * (bi * bor * (r0 + lf)) <= qb * bor * Y * fone + bor * fone * (Y + t)).
  { assert (H1 : bi * (r0 + lf) <= xb * fone + fone) by lia.
    assert (H2 : t * (bi * (r0 + lf)) <= t * (xb * fone + fone)) by (apply Z.mul_le_mono_nonneg_l; lia).
    assert (H3 : xb * t * fone <= (qb * Y + Y) * fone) by (apply Z.mul_le_mono_nonneg_r; lia).
    assert (H4 : t * (bi * (r0 + lf)) <= (qb * Y + Y) * fone + t * fone) by lia.
    assert (H5 : t * (bi * (r0 + lf)) * bor <= ((qb * Y + Y) * fone + t * fone) * bor) by (apply Z.mul_le_mono_nonneg_r; lia).
    lia. }
  assert (A5 : ((qd * dep + qf * fone) * Y) * fone <= (qb * bor * Y + bor * (Y + t) + t * r0) * fone) by lia.
  apply Z.mul_le_mono_pos_r in A5; [exact A5|exact Hf].
Qed.
