(** The stable price, state/stable_price.rs.
    A double that is not negative is an integer, in units of 2^-1074; operations round to 53
    bits, to nearest, ties to even.  Infinity is not modelled (values here have no upper
    bound), NaN is [None].  Oracle prices are doubles that are not negative, growth limits are
    finite and not negative. *)
From Coq Require Import List ZArith Lia Bool.
From Verif Require Import Bank Health Fixed.
Import ListNotations.
Open Scope Z_scope.

(** the double nearest to a / b *)
Definition rnd (a b : Z) : Z :=
  if a / b <? 2 ^ 53 then rne a b
  else let s := Z.log2 (a / b) - 52 in rne a (b * 2 ^ s) * 2 ^ s.
(** 1.0 *)
Definition ONE : Z := 2 ^ 1074.
Definition f_mul (a b : Z) : Z := rnd (a * b) ONE.
Definition f_div (a b : Z) : Z := rnd (a * ONE) b.
Definition f_add (a b : Z) : Z := rnd (a + b) 1.
Definition f_sub (a b : Z) : Z := rnd (a - b) 1.
(** integers below 2^53 *)
Definition f_of (n : Z) : Z := n * ONE.

(** :24-63 *)
Record spm := mkSpm {
  st_price : Z; (* stable_price *)
  st_last : Z; (* last_update_timestamp *)
  st_delay : list Z; (* delay_prices *)
  st_acc : Z; (* delay_accumulator_price *)
  st_acc_t : Z; (* delay_accumulator_time, u32 *)
  st_interval : Z; (* delay_interval_seconds *)
  st_dgl : Z; (* delay_growth_limit *)
  st_sgl : Z; (* stable_growth_limit *)
  st_ix : Z; (* last_delay_interval_index *)
  st_reset : bool (* reset_on_nonzero_price *) }.

(** :88-95 *)
Definition reset_to (price now : Z) (m : spm) : spm :=
  mkSpm price now (repeat price 24) 0 0 (st_interval m) (st_dgl m) (st_sgl m) (st_ix m) (negb (0 <? price)).
(** :102-108; a lower bound below zero is the same as zero, since [target] is not negative *)
Definition growth_clamped (target prev limit : Z) : Z :=
  let max := f_mul prev (f_add ONE limit) in
  let min := if limit <=? ONE then f_mul prev (f_sub ONE limit) else 0 in
  if target <? min then min else if max <? target then max else target.
(** :157-166 *)
Definition fill (full : bool) (last ix : Z) (v : Z) (L : list Z) : list Z :=
  map (fun '(i, x) =>
         let i := Z.of_nat i in
         if full || (if last <? ix then (last <=? i) && (i <? ix) else (last <=? i) || (i <? ix)) then v else x)
      (combine (seq 0 24) L).
Definition delay_at (L : list Z) (i : Z) : Z := nth (Z.to_nat i) L 0.
(** :142-171, the average price is over [acc_t] seconds.  [None]: no time passed, which takes
    a multiple of 2^32 seconds between updates *)
Definition next_delays (m : spm) (full : bool) (ix acc acc_t : Z) : option (list Z) :=
  if acc_t =? 0 then None
  else
    let prev := delay_at (st_delay m) (if st_ix m =? 0 then 23 else st_ix m - 1) in
    Some (fill full (st_ix m) ix (growth_clamped (f_div acc (f_of acc_t)) prev (st_dgl m)) (st_delay m)).
(** :110-189.  [None]: panics, because [delay_interval_seconds] is zero, an overflow, or
    bounds that are NaN when both prices are zero *)
Definition update (now oracle : Z) (m : spm) : option spm :=
  let m := if st_reset m && (0 <? oracle) then reset_to oracle now m else m in
  let dt := Z.max 0 (now - st_last m) in
  if dt <? 10 then Some m
  else
    let full := 24 * st_interval m <? dt in
    let dtl := Z.min dt 600 in
    let acc_t := st_acc_t m + dt mod 2 ^ 32 in
    let acc := f_add (st_acc m) (f_mul oracle (f_of dtl)) in
    if (2 ^ 32 <=? acc_t) || (st_interval m =? 0) then None
    else
      let ix := (now / st_interval m) mod 24 in
      let* d :=
        if ix =? st_ix m then Some (st_delay m, acc, acc_t)
        else let* L := next_delays m full ix acc acc_t in Some (L, 0, 0) in
      let '(L, acc, acc_t) := d in
      let delay := delay_at L ix in
      let p := st_price m in
      if (p =? 0) && (delay =? 0) then None
      else
        let fraction := if p <=? delay then f_div p delay else f_div delay p in
        let limit := f_mul (f_mul (f_mul (st_sgl m) fraction) fraction) (f_of dtl) in
        Some (mkSpm (growth_clamped oracle p limit) now L acc acc_t (st_interval m) (st_dgl m) (st_sgl m) ix (st_reset m)).

(** a history of updates: time and oracle price *)
Fixpoint updates (H : list (Z * Z)) (m : spm) : option spm :=
  match H with
  | [] => Some m
  | (now, o) :: H' => match update now o m with Some m' => updates H' m' | None => None end
  end.
