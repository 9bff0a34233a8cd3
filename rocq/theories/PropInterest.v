(** C29, C30: interest. *)
From Coq Require Import List ZArith Lia Bool.
From Verif Require Import Fixed Interest InterestSpec InterestFacts Bank BankSystem BankSpec BankInv BankSolvency.
Import ListNotations.
Open Scope Z_scope.

(** a curve with rates 1% at 0, 5% at 50%, 20% at 80% and 100% at full utilization
    ([fone] is the number one) *)
Definition ex_par : ipar :=
  mkIpar (fone / 100) (fone / 2) (fone / 20) (fone * 8 / 10) (fone / 5) fone 0 (fone / 200).

(** C30: for parameters accepted by [Bank::verify], the rate at a utilization [u] is
    within two units in the last place of the straight line between the
    configured points around [u], and never outside their two rates. *)
Theorem C30_piecewise_linear (c : ipar) (u v : Z) :
  ipar_valid c = true -> 0 <= u <= fone -> curve c u = Some v ->
  (u <= i_util0 c -> between (i_zero c) (i_rate0 c) v /\ near_line 0 (i_zero c) (i_util0 c) (i_rate0 c) u v 2) /\
  (i_util0 c < u <= i_util1 c ->
     between (i_rate0 c) (i_rate1 c) v /\ near_line (i_util0 c) (i_rate0 c) (i_util1 c) (i_rate1 c) u v 2) /\
  (i_util1 c < u -> between (i_rate1 c) (i_max c) v /\ near_line (i_util1 c) (i_rate1 c) fone (i_max c) u v 2).
Proof.
  intros Hv Hu H. destruct (curve_facts c u v Hv Hu H) as (A & B & C). split; [intros h; apply A in h; tauto|]. split; assumption.
Qed.
Example C30_piecewise_linear_ex : ipar_valid ex_par = true /\ curve ex_par (fone * 65 / 100) = Some (fone * 125 / 1000 - 1).
Proof. split; vm_compute; reflexivity. Qed.
Print Assumptions C30_piecewise_linear.

(** C30: the rate grows with utilization if the configured rates do *)
Theorem C30_monotone (c : ipar) (u u' v v' : Z) :
  ipar_valid c = true -> i_zero c <= i_rate0 c <= i_rate1 c -> i_rate1 c <= i_max c ->
  0 <= u <= u' -> u' <= fone -> curve c u = Some v -> curve c u' = Some v' -> v <= v'.
Proof. exact (curve_mono c u u' v v'). Qed.
Example C30_monotone_ex : exists v v', i_zero ex_par <= i_rate0 ex_par <= i_rate1 ex_par /\ i_rate1 ex_par <= i_max ex_par /\
  curve ex_par (fone / 4) = Some v /\ curve ex_par (fone * 9 / 10) = Some v' /\ v < v'.
Proof.
  eexists _, _. split; [split; vm_compute; discriminate|]. split; [vm_compute; discriminate|].
  split; [vm_compute; reflexivity|]. split; vm_compute; reflexivity.
Qed.
Print Assumptions C30_monotone.

(** C30: the scaled rate is the curve value times the scaling factor, rounded down *)
Theorem C30_scaled (c : ipar) (u v w : Z) : ipar_valid c = true ->
  curve c u = Some v -> interest_rate c u = Some w ->
  0 <= v /\ (i_scale c = 0 -> w = v) /\
  (i_scale c <> 0 -> v <= w /\ w * fone <= v * i_scale c < w * fone + fone).
Proof.
  intros Hv H H'. pose proof (curve_nonneg c u v Hv H) as V0. unfold interest_rate in H'. rewrite H in H'.
  pose proof (valid_iff c Hv) as (_ & _ & _ & _ & _ & _ & _ & _ & V8). apply some_inj in H'. subst w.
  split; [exact V0|]. destruct (Z.eqb_spec (i_scale c) 0); split; intros; try lia. pose proof (fmul_bounds v (i_scale c)) as B.
  split; [|exact B]. unfold fmul. apply Z.div_le_lower_bound; [apply fone_pos|]. nia.
Qed.
Example C30_scaled_ex : let c := mkIpar (fone / 100) (fone / 2) (fone / 20) (fone * 8 / 10) (fone / 5) fone (2 * fone) 0 in
  ipar_valid c = true /\ curve c fone = Some (fone - 1) /\ interest_rate c fone = Some (2 * fone - 2).
Proof. repeat split; vm_compute; reflexivity. Qed.
Print Assumptions C30_scaled.

(** C30: computing a rate fails exactly for [util0 = 0] at zero utilization, which
    [Bank::verify] allows: a division by zero *)
Theorem C30_fails_only_at_zero (c : ipar) (u : Z) : ipar_valid c = true ->
  (curve c u = None <-> i_util0 c = 0 /\ u <= 0).
Proof. exact (curve_none c u). Qed.
Theorem C30_always_defined_refuted : exists c, ipar_valid c = true /\ interest_rate c 0 = None /\
  compute_index c fone fone (of_int 100) 0 60 = None.
Proof. exists (mkIpar 0 0 (fone / 20) (fone / 2) (fone / 5) fone 0 0). repeat split; vm_compute; reflexivity. Qed.
Print Assumptions C30_fails_only_at_zero.
Print Assumptions C30_always_defined_refuted.

(** C29: an index update never lowers an index, fees are never negative, depositors
    never get a higher rate than borrowers pay *)
Theorem C29_indexes_grow (c : ipar) (di bi dep bor dt : Z) (r : irates) :
  ipar_valid c = true -> 0 < di -> 0 < bi -> 0 <= dep -> 0 <= bor -> 0 <= dt ->
  compute_index c di bi dep bor dt = Some r ->
  di <= r_di r /\ bi <= r_bi r /\ 0 <= r_fees r /\ 0 <= r_deposit r <= r_borrow r.
Proof.
  intros. edestruct (compute_index_facts c di bi dep bor dt r) as (A & B & C & D & E & _); try eassumption. tauto.
Qed.

(** C29: what depositors and the fee account gain is at most what borrowers are
    charged plus a rounding error of (1 + dt/year) units in the last place of the
    borrow index (times the borrows), plus the borrow rate times dt/year units of
    2^-96.  Amounts are in units of 2^-96 native tokens, times the seconds of a year. *)
Theorem C29_not_overpaid (c : ipar) (di bi dep bor dt : Z) (r : irates) :
  ipar_valid c = true -> 0 < di -> 0 < bi -> 0 <= dep -> 0 <= bor -> 0 <= dt ->
  compute_index c di bi dep bor dt = Some r ->
  ((r_di r - di) * dep + r_fees r * fone) * 31536000 <=
    (r_bi r - bi) * bor * 31536000 + bor * (31536000 + dt) + dt * r_borrow r.
Proof.
  intros. edestruct (compute_index_facts c di bi dep bor dt r) as (_ & _ & _ & _ & _ & A); try eassumption.
Qed.
Example C29_ex : exists r, compute_index ex_par (1000000 * fone) (1000000 * fone) (of_int 5) (of_int 4) 3600 = Some r /\
  1000000 * fone < r_di r /\ 1000000 * fone < r_bi r /\ 0 < r_fees r.
Proof. eexists. split; [vm_compute; reflexivity|]. repeat split; vm_compute; reflexivity. Qed.
Print Assumptions C29_indexes_grow.
Print Assumptions C29_not_overpaid.

(** Without the rounding term the claim is false: the fees are computed from the
    total, the index increase per unit *)
Theorem C29_exactly_not_overpaid_refuted : exists c di bi dep bor dt r,
  ipar_valid c = true /\ 0 < di /\ 0 < bi /\ 0 <= dep /\ 0 <= bor /\ 0 <= dt /\
  compute_index c di bi dep bor dt = Some r /\
  (r_bi r - bi) * bor < (r_di r - di) * dep + r_fees r * fone.
Proof.
  exists (mkIpar 0 (fone / 2) 0 (fone * 8 / 10) 0 0 0 (fone / 200)), fone, fone, (of_int 1000003), (of_int 999999), 7.
  eexists. repeat (split; [vm_compute; congruence || reflexivity|]). split; vm_compute; reflexivity.
Qed.
Print Assumptions C29_exactly_not_overpaid_refuted.

(** C29: the crank updates all banks of a token to the same two indexes, never lowers
    them, charges for at most one hour, and fails if the clock went backwards *)
Theorem C29_crank (banks banks' : list bank) (now : Z) (b0 : bank) :
  nth_error banks 0 = Some b0 -> ipar_valid (b_par b0) = true -> 0 < b_di b0 -> 0 < b_bi b0 ->
  0 <= fold_right (fun b t => b_dep b + t) 0 banks -> 0 <= fold_right (fun b t => b_bor b + t) 0 banks ->
  update_index banks now = Some banks' ->
  b_upd b0 <= now /\
  exists r, compute_index (b_par b0) (b_di b0) (b_bi b0) (fold_right (fun b t => b_dep b + t) 0 banks)
      (fold_right (fun b t => b_bor b + t) 0 banks) (Z.min (now - b_upd b0) 3600) = Some r /\
    b_di b0 <= r_di r /\ b_bi b0 <= r_bi r /\ length banks' = length banks /\
    (forall k b b', nth_error banks k = Some b -> nth_error banks' k = Some b' ->
       b_di b' = r_di r /\ b_bi b' = r_bi r /\ b_upd b' = now /\ b_dep b' = b_dep b /\ b_bor b' = b_bor b /\
       b_dust b' = b_dust b /\ b_fees b' = b_fees b + (if Nat.eqb k 0 then r_fees r else 0)).
Proof.
  intros Hb0 Hv Hd Hb D0 B0 H. apply update_index_inv in H as (b1 & rest & r & -> & Hn & Er & ->).
  cbn [nth_error] in Hb0. injection Hb0 as ->. split; [exact Hn|]. exists r. split; [exact Er|].
  edestruct (compute_index_facts (b_par b0) (b_di b0) (b_bi b0)) as (R1 & R2 & _); try exact Er; try assumption; [lia|].
  split; [exact R1|]. split; [exact R2|]. split; [cbn [length]; unfold all_index; rewrite map_length; reflexivity|].
  intros [|k] b b' E E'; cbn [nth_error] in E, E'.
  - injection E as <-. injection E' as <-. repeat split; reflexivity.
  - unfold all_index in E'. rewrite nth_error_map, E in E'. cbn in E'. injection E' as <-. cbn. repeat split; lia.
Qed.
Print Assumptions C29_crank.
Example C29_crank_ex : exists b0 b1 banks', nth_error [b0; b1] 0 = Some b0 /\ ipar_valid (b_par b0) = true /\
  update_index [b0; b1] 100000 = Some banks' /\ Forall (fun b => b_di b0 < b_di b /\ b_upd b = 100000) banks' /\
  length banks' = 2%nat.
Proof.
  exists (mkBank fone fone (of_int 100) (of_int 60) 0 0 0 0 100 0 1000 fone 0 0 0 fone 50 ex_par 0),
         (mkBank fone fone (of_int 30) (of_int 20) 0 0 0 0 100 0 1000 fone 0 0 0 fone 50 ex_par 0).
  eexists. split; [reflexivity|]. split; [vm_compute; reflexivity|]. split; [vm_compute; reflexivity|].
  split; [|reflexivity]. repeat constructor.
Qed.
