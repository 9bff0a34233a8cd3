(** The interest rate curve and the index update.
    Models src/state/bank.rs:1026-1138. *)
From Coq Require Import ZArith Lia Bool.
From Verif Require Import Fixed.
Open Scope Z_scope.

(** bank.rs:60-80, :190-205: the interest parameters of [Bank].  [i_scale] is
    [I80F48::from_num(interest_curve_scaling)], which is exact up to f64
    conversion; 0 stands for [interest_curve_scaling == 0.0]. *)
Record ipar := mkIpar {
  i_zero : fx;            (* zero_util_rate *)
  i_util0 : fx;
  i_rate0 : fx;
  i_util1 : fx;
  i_rate1 : fx;
  i_max : fx;             (* max_rate *)
  i_scale : fx;
  i_loan : fx }.          (* loan_fee_rate *)

(** [a / b], panics on zero *)
Definition cdiv (a b : fx) : option fx := if b =? 0 then None else Some (fdiv a b).
Definition clamp01 (u : fx) : fx := Z.min (Z.max u 0) fone.

(** bank.rs:1106-1131: [interest_rate_curve_calculator] before scaling *)
Definition curve (c : ipar) (utilization : fx) : option fx :=
  let u := clamp01 utilization in
  if u <=? i_util0 c then
    match cdiv (i_rate0 c - i_zero c) (i_util0 c) with
    | Some slope => Some (i_zero c + fmul slope u)
    | None => None
    end
  else if u <=? i_util1 c then
    match cdiv (i_rate1 c - i_rate0 c) (i_util1 c - i_util0 c) with
    | Some slope => Some (i_rate0 c + fmul slope (u - i_util0 c))
    | None => None
    end
  else
    match cdiv (i_max c - i_rate1 c) (fone - i_util1 c) with
    | Some slope => Some (i_rate1 c + fmul slope (u - i_util1 c))
    | None => None
    end.
(** bank.rs:1133-1138, and :1092-1104 [compute_interest_rate] *)
Definition interest_rate (c : ipar) (utilization : fx) : option fx :=
  match curve c utilization with
  | Some v => Some (if i_scale c =? 0 then v else fmul v (i_scale c))
  | None => None
  end.

(** bank.rs:1076-1088 [instantaneous_utilization] *)
Definition utilization (native_dep native_bor : fx) : fx :=
  if native_dep =? 0 then 0 else Z.min (Z.max (fdiv native_bor native_dep) 0) fone.

(** bank.rs:20 [YEAR_I80F48] *)
Definition YEAR : Z := 31536000.

Record irates := mkIrates { r_di : fx; r_bi : fx; r_fees : fx; r_borrow : fx; r_deposit : fx }.

(** bank.rs:1026-1069 [compute_index]; [dt] is [diff_ts] in whole seconds *)
Definition compute_index (c : ipar) (di bi dep bor : fx) (dt : Z) : option irates :=
  let nd := fmul di dep in
  let nb := fmul bi bor in
  let u := utilization nd nb in
  match interest_rate c u with
  | None => None
  | Some rate =>
      let deposit_rate := fmul rate u in
      let with_fees := rate + i_loan c in
      let t := of_int dt in
      let fees := fdiv (fmul (fmul nb (i_loan c)) t) (of_int YEAR) in
      Some (mkIrates (fdiv (fmul (fmul di deposit_rate) t) (of_int YEAR) + di)
                     (fdiv (fmul (fmul bi with_fees) t) (of_int YEAR) + bi)
                     fees rate deposit_rate)
  end.

(** bank.rs:389-436 [verify], the conditions on these parameters *)
Definition ipar_valid (c : ipar) : bool :=
  (0 <=? i_util0 c) && (i_util0 c <=? i_util1 c) && (i_util1 c <=? fone) &&
  (0 <=? i_zero c) && (0 <=? i_rate0 c) && (0 <=? i_rate1 c) && (0 <=? i_max c) &&
  (0 <=? i_loan c) && ((i_scale c =? 0) || (fone <=? i_scale c)).
