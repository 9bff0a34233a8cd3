(** Low precision division and clamping.  Models src/i80f48.rs:8-27, :71-119. *)
From Coq Require Import ZArith Lia Bool.
From Verif Require Import Fixed.
Open Scope Z_scope.

(** [u128::leading_zeros], [u64::leading_zeros] *)
Definition lz (bits x : Z) : Z := if x <=? 0 then bits else bits - 1 - Z.log2 x.
(** Outcome of a call: a panic ([-i128::MIN] overflows), [None], or [Some]. *)
Inductive div_result := DPanic | DNone | DSome (r : fx).
(** i80f48.rs:71-119 [checked_div_30bit_precision].  [Z.shiftl x s] with a negative [s]
    shifts right. *)
Definition div30 (a b : fx) : div_result :=
  if b =? 0 then DNone
  else if (a =? - 2 ^ 127) || (b =? - 2 ^ 127) then DPanic
  else
    let r_neg := xorb (a <? 0) (b <? 0) in
    let an := Z.abs a in
    let bn := Z.abs b in
    let an_zeros := lz 128 an in
    let bn_zeros := lz 128 bn in
    let an_shift := if 64 <=? an_zeros then an_zeros - 64 else - (64 - an_zeros) in
    let ar := (if 64 <=? an_zeros then Z.shiftl an (an_zeros - 64) else Z.shiftr an (64 - an_zeros)) mod 2 ^ 64 in
    let bn_shift := if 96 <=? bn_zeros then 0 else - (96 - bn_zeros) in
    let br := (if 96 <=? bn_zeros then bn else Z.shiftr bn (96 - bn_zeros)) mod 2 ^ 64 in
    let rr := ar / br in
    let s := 48 + bn_shift - an_shift in
    let rr_zeros := lz 64 rr in
    if 63 + rr_zeros <? s then DNone
    else
      let r := if 0 <=? s then Z.shiftl rr s else Z.shiftr rr (- s) in
      DSome (if r_neg then - r else r).

(** i80f48.rs:8-17 *)
Definition clamp_to_i64 (x : fx) : Z :=
  if x <=? of_int (- 2 ^ 63) then - 2 ^ 63
  else if of_int (2 ^ 63 - 1) <=? x then 2 ^ 63 - 1 else to_int x.
(** i80f48.rs:19-27 *)
Definition clamp_to_u64 (x : fx) : Z :=
  if x <=? 0 then 0
  else if of_int (2 ^ 64 - 1) <=? x then 2 ^ 64 - 1 else to_int x.
