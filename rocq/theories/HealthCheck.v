(** The health_check instruction.  /repo/programs/mango-v4/src/instructions/health_check.rs:11-49 *)
From Coq Require Import List ZArith Bool.
From Verif Require Import Fixed PerpTypes Bank Health.
Import ListNotations.
Open Scope Z_scope.

(** [I80F48::MIN]; fixed crate *)
Definition fx_min : fx := - 2 ^ 127.
(** [saturating_div] *)
Definition sat_div (a b : fx) : fx := Z.max fx_min (Z.min fx_max (fdiv a b)).
(** health/cache.rs:624-633 [HealthCache::health_ratio], with the "stable liabs" split of :641-647.
    Simplified: the product with 100 is exact (the program aborts if it leaves the range of I80F48). *)
Definition health_ratio (hc : cache) (ty : htype) : option fx :=
  match assets_and_liabs hc ty false with
  | None => None
  | Some (A, L) => Some (if 0 <? L then sat_div (fmul (of_int 100) (A - L)) L else fx_max)
  end.

(** accounts_ix/health_check.rs:6-14 [HealthCheckKind] *)
Inductive check_kind := KHealth (ty : htype) | KRatio (ty : htype).
(** instructions/health_check.rs:31-43 *)
Definition check_value (hc : cache) (k : check_kind) : option fx :=
  match k with KHealth ty => health hc ty | KRatio ty => health_ratio hc ty end.
(** instructions/health_check.rs:11-49.  The health cache is built from the banks and oracles the caller passes, leaving out what is
    missing or unusable.  Simplified: [min] is the minimum already converted from a double to I80F48 (:30), the gate and the frozen
    flag are modelled in IxGate.v and Freeze.v.  The instruction only succeeds or fails. *)
Definition health_check (L : list pos_in) (O : list serum_in) (P : list pinfo) (k : check_kind) (min : fx) : option unit :=
  match build_cache true L O P with
  | None => None
  | Some hc => match check_value hc k with
               | None => None
               | Some v => if min <=? v then Some tt else None
               end
  end.
