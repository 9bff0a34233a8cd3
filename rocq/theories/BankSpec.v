(** Vocabulary for the statements about token banks. *)
From Coq Require Import List ZArith Lia Bool.
From Verif Require Import Fixed Interest Bank BankSystem.
Import ListNotations.
Open Scope Z_scope.

(** sums over all positions of the positive and of the negative parts *)
Definition lent (s : tstate) : Z := fold_right (fun e t => Z.max (t_ix (snd e)) 0 + t) 0 (ts_pos s).
Definition borrowed (s : tstate) : Z := fold_right (fun e t => Z.max (- t_ix (snd e)) 0 + t) 0 (ts_pos s).
(** sums over the banks *)
Definition bank_deposits (s : tstate) : Z := fold_right (fun b t => b_dep b + t) 0 (ts_banks s).
Definition bank_borrows (s : tstate) : Z := fold_right (fun b t => b_bor b + t) 0 (ts_banks s).

(** the exact worth of a position of [ix] shares with indexes [di], [bi], in units
    of 2^-96 native tokens *)
Definition worth (di bi ix : Z) : Z := if ix <? 0 then ix * bi else ix * di.

(** the state right after a token is registered *)
Definition new_token (s : tstate) : Prop :=
  ts_pos s = [] /\ ts_cash s = 0 /\ exists b, ts_banks s = [b] /\ fresh_bank b.

(** all steps of the history keep the deposit and borrow indexes of all banks
    positive *)
Definition indexes_positive (s : tstate) : Prop := forall b, In b (ts_banks s) -> 0 < b_di b /\ 0 < b_bi b.

(** every loss that is socialized is smaller than the worth of all deposits *)
Fixpoint losses_covered (s : tstate) (ops : list top) : Prop :=
  match ops with
  | [] => True
  | o :: r =>
      (match o with
       | TSocialize _ _ loss _ _ => forall b, In b (ts_banks s) -> loss * fone < lent s * b_di b
       | _ => True
       end) /\
      match tstep s o with Some s' => losses_covered s' r | None => True end
  end.

(** ** What the group owes, against what it holds *)
(** claims of the depositors minus debts of the borrowers, in 2^-96 native tokens *)
Definition claims (di bi : Z) (s : tstate) : Z := fold_right (fun e t => worth di bi (t_ix (snd e)) + t) 0 (ts_pos s).
(** claims plus dust and not yet withdrawn fees, minus the tokens held, for the
    bank [b] of a token with one bank *)
Definition shortfall (b : bank) (s : tstate) : Z :=
  claims (b_di b) (b_bi b) s + (b_dust b + b_fees b - b_fw b * fone - ts_cash s) * fone.

(** the highest interest rate of the configured curve *)
Definition top_rate (c : ipar) : Z :=
  let m := Z.max (Z.max (i_zero c) (i_rate0 c)) (Z.max (i_rate1 c) (i_max c)) in
  if i_scale c =? 0 then m else m * i_scale c / fone.

(** rounding allowed for one step, in 2^-96 native tokens *)
Definition rounding (s : tstate) (o : top) : Z :=
  match ts_banks s with
  | [b] =>
      match o with
      | TBank _ _ _ _ => Z.max (b_di b) (b_bi b)
      | TUpdateIndex _ => 2 * borrowed s + top_rate (b_par b)
      | TSocialize _ _ _ _ _ => lent s + Z.max (b_di b) (b_bi b)
      | _ => 0
      end
  | _ => 0
  end.
Fixpoint roundings (s : tstate) (ops : list top) : Z :=
  match ops with
  | [] => 0
  | o :: r => rounding s o + match tstep s o with Some s' => roundings s' r | None => 0 end
  end.
