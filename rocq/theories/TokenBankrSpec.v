(** Specification vocabulary for token bankruptcy. *)
From Coq Require Import List ZArith Bool.
From Verif Require Import Bank Health HealthSpec TokenLiqSpec TokenBankr Fixed.
Import ListNotations.
Open Scope Z_scope.

(** bank settings that hold for every bank *)
Definition bank_fine (b : bank) : Prop := 0 < b_di b /\ 0 < b_bi b /\ 0 <= b_lof b.
(** the liqee's borrow in native tokens (positive) *)
Definition debt (s : bstate) : fx := match nth_error (bs_banks s) (bs_k s) with Some b => - native b (bs_ee s) | None => 0 end.
(** the state is one the program can be in: the health cache was built from the account *)
Definition bstate_ok (e : benv) (s : bstate) : Prop :=
  NoDup (map ti_index (hc_tokens (bs_cache s))) /\ flags_ok (bs_cache s) /\
  (exists t, In t (hc_tokens (bs_cache s)) /\ ti_index t = be_il e /\ - ti_spot t = debt s) /\
  (forall b, In b (bs_banks s) -> bank_fine b) /\ bank_fine (bs_ins s) /\ 0 <= bs_vault s.
Definition benv_ok (e : benv) : Prop :=
  0 < be_price e /\ 0 <= be_fee e /\ (forall p, be_ins_price e = Some p -> 0 < p).

(** [f] is the price of a liab token in insurance tokens: for another token the oracle price with the
    liquidation fee, rounded; for the same token one *)
Definition insurance_price (e : benv) (f : fx) : Prop :=
  0 < f /\
  match be_ins_price e with
  | Some p => f * p <= be_price e * (fone + be_fee e) < (f + 1) * p + fone
  | None => f = fone
  end.
(** what the fund may spend on this token *)
Definition available (e : benv) (s : bstate) : Z := if be_eligible e then bs_vault s else 0.
