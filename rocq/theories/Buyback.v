(** Buyback of fees with MNGO.
    Models src/state/mango_account.rs:404-444 and the amounts of
    src/instructions/account_buyback_fees_with_mngo.rs:52-161. *)
From Coq Require Import List ZArith Lia Bool.
From Verif Require Import Fixed.
Import ListNotations.
Open Scope Z_scope.

Definition max_u64 : Z := 2 ^ 64 - 1.
(** mango_account.rs:150-165, the three buyback fields of [MangoAccountFixed] *)
Record bfees := mkBfees { bf_current : Z; bf_previous : Z; bf_expiry : Z }.
Definition bf_new : bfees := mkBfees 0 0 0.
(** u64 arithmetic panics on overflow *)
Definition u64_ok (x : Z) : option Z := if (0 <=? x) && (x <=? max_u64) then Some x else None.
Definition sat_add (a b : Z) : Z := Z.min (a + b) max_u64.

(** mango_account.rs:405-416 [expire_buyback_fees] *)
Definition expire_fees (f : bfees) (now interval : Z) : option bfees :=
  if (interval =? 0) || (now <? bf_expiry f) then Some f
  else
    match u64_ok (bf_expiry f + interval) with
    | None => None
    | Some lim =>
        let prev := if now <? lim then bf_current f else 0 in
        match u64_ok ((now / interval + 1) * interval) with
        | Some e => Some (mkBfees 0 prev e)
        | None => None
        end
    end.
(** mango_account.rs:419-422 [buyback_fees_accrued] *)
Definition fees_accrued (f : bfees) : Z := sat_add (bf_current f) (bf_previous f).
(** mango_account.rs:427-430 [accrue_buyback_fees] *)
Definition accrue_fees (f : bfees) (amount : Z) : bfees :=
  mkBfees (sat_add (bf_current f) amount) (bf_previous f) (bf_expiry f).
(** mango_account.rs:435-444 [reduce_buyback_fees_accrued]; the assert and the
    subtractions panic *)
Definition reduce_fees (f : bfees) (amount : Z) : option bfees :=
  if bf_previous f <? amount then
    let rest := amount - bf_previous f in
    if rest <=? bf_current f then Some (mkBfees (bf_current f - rest) 0 (bf_expiry f)) else None
  else Some (mkBfees (bf_current f) (bf_previous f - amount) (bf_expiry f)).

(** What instructions do with the fields: every accrual and every use comes after an
    expiry in the same instruction (serum3_place_order.rs:618-622,
    perp_place_order.rs:103 with book.rs:486, :507, mango_account.rs:1284,
    account_buyback_fees_with_mngo.rs:59-161). *)
Inductive bf_op := BEarn (now amount : Z) | BSpend (now amount : Z).
Definition bf_step (interval : Z) (f : bfees) (o : bf_op) : option bfees :=
  match o with
  | BEarn now a => match expire_fees f now interval with Some f' => Some (accrue_fees f' a) | None => None end
  | BSpend now a => match expire_fees f now interval with Some f' => reduce_fees f' a | None => None end
  end.
Fixpoint bf_run (interval : Z) (f : bfees) (os : list bf_op) : option bfees :=
  match os with
  | [] => Some f
  | o :: r => match bf_step interval f o with Some f' => bf_run interval f' r | None => None end
  end.

(** account_buyback_fees_with_mngo.rs: the amounts moved.  [mngo_price] is the lower of
    oracle and stable price, [fees_price] the higher, [account_mngo] and [dao_fees] the native
    token positions.  The token movements themselves are the bank operations of Bank.v. *)
Record buyback := mkBuyback { bb_mngo : fx; bb_fees : fx; bb_usd : fx; bb_after : bfees }.
Definition buyback_fees (f : bfees) (now interval max_usd : Z)
    (mngo_price fees_price bonus account_mngo dao_fees : fx) : option (bfees * option buyback) :=
  match expire_fees f now interval with
  | None => None
  | Some f1 =>
      let usd := Z.min (of_int (Z.min max_usd (fees_accrued f1))) (fmul dao_fees fees_price) in
      if usd <=? 0 then Some (f1, None)                                        (* :69 *)
      else if account_mngo <=? 0 then Some (f1, None)                          (* :82 *)
      else
        let price := fmul mngo_price bonus in                                  (* :92 *)
        if price =? 0 then None else
        let mngo := Z.min (fdiv usd price) account_mngo in                     (* :96-98 *)
        let usd' := Z.min usd (fmul mngo price) in                             (* :99 *)
        if fees_price =? 0 then None else
        let fees := fdiv usd' fees_price in                                    (* :100 *)
        if dao_fees <? fees then None else                                     (* :132 assert *)
        match reduce_fees f1 (ceil_int usd') with                              (* :159-161 *)
        | Some f2 => Some (f2, Some (mkBuyback mngo fees usd' f2))
        | None => None
        end
  end.
