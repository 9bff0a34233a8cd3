(** Specification vocabulary for pnl settlement. *)
From Coq Require Import List ZArith Bool.
From Verif Require Import OrderTree Fixed BookSpec PerpTypes SettleLimit.
Import ListNotations.
Open Scope Z_scope.

(** a settlement of [s] native quote (positive: profit taken out) is inside the
    position's available limit *)
Definition within_limit (mk : market) (c : scfg) (p : position) (l : limits) (s : fx) : bool :=
  (of_int (fst (available_settle_limit p l mk c)) <=? s) && (s <=? of_int (snd (available_settle_limit p l mk c))).

(** settling the amounts [L] one after the other inside one window, with no other
    change of the position or the market; each is inside the limit available then *)
Fixpoint settle_all (mk : market) (c : scfg) (p : position) (l : limits) (L : list fx) : option (position * limits) :=
  match L with
  | [] => Some (p, l)
  | s :: L' => if within_limit mk c p l s
               then let '(p', l') := record_settle p l mk c s in settle_all mk c p' l' L'
               else None
  end.

(** what a position may still realize in its window, in whole native units plus the
    once-only allowance: upwards (profits) and downwards (losses) *)
Definition allowance_up (mk : market) (c : scfg) (p : position) (l : limits) : fx :=
  of_int (unrealized_limit p mk c + Z.abs (lm_rec l) - lm_used l) + Z.max (p_oneshot p) 0.
Definition allowance_down (mk : market) (c : scfg) (p : position) (l : limits) : fx :=
  of_int (unrealized_limit p mk c + Z.abs (lm_rec l) + lm_used l) + Z.max (- p_oneshot p) 0.

(** pnl of a position at a price: quote after funding plus the value of the base *)
Definition pnl_at (mk : market) (p : position) (price : fx) : fx :=
  p_quote p - unsettled_funding p mk + p_base p * mk_bls mk * price.
