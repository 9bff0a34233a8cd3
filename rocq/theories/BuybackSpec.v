(** Vocabulary of C34: a ledger of earned fees. *)
From Coq Require Import List ZArith Lia Bool.
From Verif Require Import Buyback.
Import ListNotations.
Open Scope Z_scope.

(** a lot of fees: when earned, how much of it is left *)
Definition lot := (Z * Z)%type.
(** time is cut into periods of length [interval]; fees can be used in the period they
    were earned in and in the next one *)
Definition usable (interval now t : Z) : bool := now / interval <=? t / interval + 1.
(** use [a] of the lots, oldest first *)
Fixpoint use_oldest (a : Z) (l : list lot) : list lot :=
  match l with
  | [] => []
  | (t, x) :: r => if x <=? a then use_oldest (a - x) r else (t, x - a) :: r
  end.
Definition usable_lots (interval now : Z) (l : list lot) : list lot :=
  filter (fun p => usable interval now (fst p)) l.
Fixpoint total (l : list lot) : Z := match l with [] => 0 | (_, x) :: r => x + total r end.
Definition ledger_step (interval : Z) (l : list lot) (o : bf_op) : list lot :=
  match o with
  | BEarn now a => l ++ [(now, a)]
  | BSpend now a => use_oldest a (usable_lots interval now l)
  end.
Definition ledger (interval : Z) (os : list bf_op) : list lot := fold_left (ledger_step interval) os [].
Definition op_time (o : bf_op) : Z := match o with BEarn t _ | BSpend t _ => t end.
Definition op_amount (o : bf_op) : Z := match o with BEarn _ a | BSpend _ a => a end.
(** times do not go backwards, amounts are not negative *)
Fixpoint orderly (from : Z) (os : list bf_op) : Prop :=
  match os with [] => True | o :: r => from <= op_time o /\ 0 <= op_amount o /\ orderly (op_time o) r end.
Fixpoint earned (os : list bf_op) : Z :=
  match os with [] => 0 | BEarn _ a :: r => a + earned r | _ :: r => earned r end.
