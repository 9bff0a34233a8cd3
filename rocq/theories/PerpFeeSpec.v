(** Specification vocabulary for fees of perp trades. *)
From Coq Require Import List ZArith Bool.
From Verif Require Import OrderTree Fixed EventQueue PerpTypes Book BookSpec PerpSystem PerpSpec.
Import ListNotations.
Open Scope Z_scope.

(** a rate with at most 24 significant bits: every rate set through an f32 argument
    (perp_create_market.rs:78, perp_edit_market.rs:160) *)
Definition f32_rate (r : fx) : Prop := exists m e, Z.abs m < 2 ^ 24 /\ 0 <= e /\ r = m * 2 ^ e.
(** what the maker of a fill is charged, in native quote (negative: rebate) *)
Definition maker_charge (qls : Z) (f : fill) : fx := qls * (f_price f * f_qty f) * f_maker_fee f.
Definition charges (qls : Z) (Q : list event) : fx := sumZ (map (maker_charge qls) (fills Q)).

(** instructions that do not change the market's fees or funding and move no quote in
    or out of perp positions *)
Definition quiet (x : op) : Prop :=
  match x with
  | OpQuote _ _ _ | OpMarket _ _ _ _ _ _ _ _ => False
  | OpTrade _ _ _ q1 q2 => q1 + q2 = 0
  | _ => True
  end.
