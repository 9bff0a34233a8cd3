(** Specification vocabulary for funding, settlement and loss socialization. *)
From Coq Require Import List ZArith Bool.
From Verif Require Import OrderTree Fixed BookSide EventQueue PerpTypes Book BookSpec PerpSystem PerpSpec PerpFeeSpec SettleLimit PerpMoney.
Import ListNotations.
Open Scope Z_scope.

(** what a position owes in funding since it was last settled: for each long lot the rise
    of the long index, for each short lot the fall of the short index (negative: it is owed) *)
Definition owed (mk : market) (p : position) : fx :=
  (if p_base p <? 0 then mk_short_funding mk - p_short_settled p else mk_long_funding mk - p_long_settled p) * p_base p.
(** the quote a position would have after settling its funding *)
Definition after_funding (mk : market) (p : position) : fx := p_quote p - owed mk p.

(** quote held by all positions (after funding) and by the market as accrued fees, less the
    maker fees of pending fills, which are already accrued but not yet charged *)
Definition quote_sum (y : sys) (Q : list event) : fx :=
  total (after_funding (y_mk y)) y + mk_fees_accrued (y_mk y) - charges (mk_qls (y_mk y)) Q.

(** what is lost when a loss is spread over the open interest by integer division: the
    remainder, or everything if there is no open interest *)
Definition residue (x : fx * Z) : fx := if snd x =? 0 then fst x else fst x mod snd x.

(** instructions as they can be sent; maker fees come from f32 arguments, the platform
    liquidation fee is not negative, prices and lot sizes neither *)
Definition mop_wf (x : mop) : Prop :=
  match x with
  | MOp o => op_wf o
  | MEdit maker _ _ _ _ => f32_rate maker
  | MLiqBase _ _ _ _ _ price _ _ _ plat_fee _ _ => 0 <= price /\ 0 <= plat_fee
  | MSettleFees _ _ _ _ max_amount => 0 <= max_amount
  | MLiqNegative _ _ _ _ _ _ _ _ _ _ _ cover _ => 0 <= cover
  | _ => True
  end.
Definition is_force_close (x : mop) : bool := match x with MForceClose _ _ _ => true | _ => false end.

(** a perp market from its creation *)
Definition mfresh (cap : nat) (buf : list event) (idx bls qls : Z) (maker taker penalty aw lw : fx) (created : Z) : mstate :=
  mkMS (fresh cap buf idx bls qls maker taker penalty aw lw) created.

(** funding parameters of an update within bounds: oracle price at most [P], rate at most
    [R] per day *)
Definition funding_within (P R : fx) (x : mop) : Prop :=
  match x with
  | MFunding fc oracle _ => Z.abs oracle <= P /\ Z.abs (fc_min fc) <= R /\ Z.abs (fc_max fc) <= R
  | _ => True
  end.
Definition is_funding (x : mop) : bool := match x with MFunding _ _ _ => true | _ => false end.
Definition funding_updates (L : list mop) : Z := Z.of_nat (length (filter is_funding L)).

(** states a market can get into by these instructions; the list collects the losses that
    were socialized *)
Definition mreached (cap capq : nat) (m : mstate) : Prop :=
  exists buf idx bls qls maker taker penalty aw lw created L soc,
    length buf = capq /\ (0 < capq)%nat /\ idx <> FREE /\ 0 <= bls /\ 0 <= qls /\ f32_rate maker /\ Forall mop_wf L /\
    mrun (mfresh cap buf idx bls qls maker taker penalty aw lw created) L = Some (m, soc).
