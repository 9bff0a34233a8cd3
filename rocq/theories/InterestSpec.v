(** What a piecewise linear interest curve is, independent of how it is computed. *)
From Coq Require Import ZArith.
From Verif Require Import Fixed.
Open Scope Z_scope.

(** [v] is within [k] units in the last place of the straight line through
    (xa,ya) and (xb,yb), at the position [u] *)
Definition near_line (xa ya xb yb u v k : Z) : Prop :=
  Z.abs ((v - ya) * (xb - xa) - (yb - ya) * (u - xa)) < k * (xb - xa).
Definition between (a b v : Z) : Prop := Z.min a b <= v <= Z.max a b.
