(** Histories of one token: several banks, many accounts.
    Models the bank side of all instructions that move tokens, src/instructions/
    token_deposit.rs, token_withdraw.rs, token_update_index_and_rate.rs,
    token_liq_bankruptcy.rs:236-268, token_edit.rs, token_add_bank.rs,
    admin_token_withdraw_fees.rs; the other instructions (liquidation, serum,
    flash loan, conditional swaps, perp settlement) move tokens only through the
    same [Bank] methods, so each is a sequence of the steps below. *)
From Coq Require Import List ZArith Lia Bool.
From Verif Require Import OrderTree Keys Fixed PerpTypes Interest Bank.
Import ListNotations.
Open Scope Z_scope.

(** [ts_pos]: the active token positions for this token, by account; [ts_cash]:
    tokens paid in minus tokens paid out, as a fixed point number *)
Record tstate := mkTstate { ts_banks : list bank; ts_pos : list (Z * tpos); ts_cash : fx }.

Fixpoint set_nth {A} (l : list A) (k : nat) (x : A) : list A :=
  match l, k with
  | [], _ => []
  | _ :: r, O => x :: r
  | y :: r, S k => y :: set_nth r k x
  end.
Fixpoint pos_get (l : list (Z * tpos)) (a : Z) : option tpos :=
  match l with [] => None | (a', p) :: r => if a' =? a then Some p else pos_get r a end.
Fixpoint pos_set (l : list (Z * tpos)) (a : Z) (p : tpos) : list (Z * tpos) :=
  match l with [] => [] | (a', q) :: r => if a' =? a then (a', p) :: r else (a', q) :: pos_set r a p end.
Fixpoint pos_del (l : list (Z * tpos)) (a : Z) : list (Z * tpos) :=
  match l with [] => [] | (a', q) :: r => if a' =? a then r else (a', q) :: pos_del r a end.

Inductive bop :=
| BDeposit (x : fx) (dusting : bool) (now : Z)      (* Bank::deposit / deposit_with_dusting *)
| BWithdraw (x : fx) (fee dusting : bool) (now : Z) (* Bank::withdraw_* *)
| BLoanFee (already : fx) (now : Z)                 (* Bank::withdraw_loan_origination_fee *)
| BDust (now : Z)                                   (* Bank::dust_if_possible *)
| BCharge (x fee : fx) (dusting : bool) (now : Z).  (* a change by [x] of which the bank keeps [fee]:
     flash_loan.rs:445-475, token_liq_with_token.rs:225-262, token_force_close_borrows_with_token.rs:105-135,
     token_conditional_swap_trigger.rs:320-345, token_charge_collateral_fees.rs:186-200 ([x] = 0) *)

(** one call of a [Bank] method: new bank, new position, still active, tokens paid in *)
Definition bank_op (b : bank) (p : tpos) (o : bop) : option (bank * tpos * bool * fx) :=
  match o with
  | BDeposit x true now => let* (b', p', act) := deposit_with_dusting b p x now in Some (b', p', act, x)
  | BDeposit x false now => let* (b', p', act) := deposit b p x now in Some (b', p', act, x)
  | BWithdraw x true _ now => let* (b', p', r) := withdraw_with_fee b p x now in Some (b', p', w_active r, - x)
  | BWithdraw x false true now =>
      let* (b', p', act) := withdraw_without_fee_with_dusting b p x now in Some (b', p', act, - x)
  | BWithdraw x false false now => let* (b', p', act) := withdraw_without_fee b p x now in Some (b', p', act, - x)
  | BLoanFee y now => let* (b', p', r) := withdraw_loan_origination_fee b p y now in Some (b', p', w_active r, 0)
  | BDust now => let* (b', p', act) := dust_if_possible b p now in Some (b', p', act, 0)
  | BCharge x fee dusting now =>
      let* _ := guard (0 <=? fee) in
      let b0 := set_totals b (b_dep b) (b_bor b) (b_dust b) (b_fees b + fee) in
      let* (b', p', act) :=
        (if 0 <=? x - fee
         then (if dusting then deposit_with_dusting else deposit) b0 p (x - fee) now
         else (if dusting then withdraw_without_fee_with_dusting else withdraw_without_fee) b0 p (- (x - fee)) now) in
      Some (b', p', act, x)
  end.

Inductive top :=
| TBank (k : nat) (a : Z) (o : bop) (close : bool)
| TOpen (a : Z)                                     (* ensure_token_position of a new token *)
| TInUse (a n : Z)                                  (* increment / decrement_in_use *)
| TUpdateIndex (now : Z)
| TEdit (e : bank) (reset_window : bool)            (* token_edit.rs, and the hourly rate scaling of
                                                        token_update_index_and_rate.rs:178-229 *)
| TSerum (k : nat) (n : Z)                          (* potential_serum_tokens changes *)
| TAddBank (k : nat)                                (* token_add_bank.rs *)
| TSocialize (k : nat) (a loss now : Z) (close : bool)
| TWithdrawFees (k : nat) (vault : Z)
| TReceiveFee (k : nat) (n : Z).                    (* rebates paid into the vault, serum3_place_order.rs:597-603 *)

(** bank.rs:305-386 [from_existing_bank] *)
Definition from_existing (b : bank) : bank :=
  mkBank (b_di b) (b_bi b) 0 0 0 0 (b_lof b) (b_win_start b) (b_win_size b) 0 (b_win_limit b)
    (b_stable b) (b_dep_limit b) 0 (b_reduce b) (b_max_util b) (b_upd b) (b_par b) 0.
(** token_edit.rs:70-520: the fields of this model that it can change, taken from [e] *)
Definition edit_bank (e : bank) (reset_window : bool) (b : bank) : bank :=
  mkBank (b_di b) (b_bi b) (b_dep b) (b_bor b) (b_dust b) (b_fees b) (b_lof e)
    (if reset_window then 0 else b_win_start b) (b_win_size e) (if reset_window then 0 else b_win_net b) (b_win_limit e)
    (b_stable e) (b_dep_limit e) (b_serum b) (b_reduce e) (b_max_util e) (b_upd b) (b_par e) (b_fw b).

Definition all_index (banks : list bank) (di bi : fx) (now : Z) : list bank :=
  map (fun b => set_index b di bi (b_fees b) now) banks.
Definition sum_z {A} (f : A -> Z) (l : list A) : Z := fold_right (fun x s => f x + s) 0 l.

(** token_update_index_and_rate.rs:63-71, :95-108, :140-149 *)
Definition update_index (banks : list bank) (now : Z) : option (list bank) :=
  match banks with
  | [] => None
  | b0 :: _ =>
      let* _ := guard (b_upd b0 <=? now) in
      let dt := Z.min (now - b_upd b0) 3600 in
      let* r := compute_index (b_par b0) (b_di b0) (b_bi b0) (sum_z b_dep banks) (sum_z b_bor banks) dt in
      match all_index banks (r_di r) (r_bi r) now with
      | [] => None
      | b :: rest => Some (set_index b (r_di r) (r_bi r) (b_fees b + r_fees r) now :: rest)
      end
  end.

(** token_liq_bankruptcy.rs:250-265: the loop over the banks, including its [break] *)
Fixpoint credit_banks (banks : list bank) (new_di : fx) (p : tpos) (left : fx) (act : bool) (now : Z)
  : option (list bank * tpos * bool) :=
  match banks with
  | [] => Some ([], p, act)
  | b :: rest =>
      let b := set_index b new_di (b_bi b) (b_fees b) (b_upd b) in
      let amount := Z.min left (native_borrows b) in
      if 0 <? amount then
        let* (b', p', act') := deposit_with_dusting b p amount now in
        let left := left - amount in
        if left <=? 0 then Some (b' :: rest, p', act')
        else let* (rest', p2, act2) := credit_banks rest new_di p' left act' now in Some (b' :: rest', p2, act2)
      else
        let* (rest', p2, act2) := credit_banks rest new_di p left act now in Some (b :: rest', p2, act2)
  end.

(** token_liq_bankruptcy.rs:233-268; [loss]: [remaining_liab_loss], positive; the
    deposit index used is that of the bank found among the health accounts, :71-75,
    the [k]th of the token's banks *)
Definition socialize (banks : list bank) (k : nat) (p : tpos) (loss : fx) (now : Z) : option (list bank * tpos * bool) :=
  let* _ := guard (0 <? loss) in
  let* b0 := nth_error banks k in
  let* q := cdiv loss (sum_z b_dep banks) in
  let* (banks', p', act) := credit_banks banks (b_di b0 - q) p loss true now in
  let* _ := guard (t_ix p' =? 0) in
  Some (banks', p', act).

(** admin_token_withdraw_fees.rs:6-22 *)
Definition withdraw_fees (b : bank) (vault : Z) : option (bank * Z) :=
  let fees := to_int (b_fees b) - b_fw b in
  let* _ := guard (0 <=? fees) in
  let amount := Z.min fees vault in
  Some (set_fw b (b_fw b + amount), amount).

(** put a position back; it is deactivated (mango_account.rs:1033-1037, which
    asserts that it is not in use) only when the bank reported it inactive *)
Definition put_back (l : list (Z * tpos)) (a : Z) (p : tpos) (act close : bool) : option (list (Z * tpos)) :=
  if close then let* _ := guard (negb act && (t_use p =? 0)) in Some (pos_del l a) else Some (pos_set l a p).

Definition tstep (s : tstate) (o : top) : option tstate :=
  match o with
  | TBank k a op close =>
      let* b := nth_error (ts_banks s) k in
      let* p := pos_get (ts_pos s) a in
      let* (b', p', act, paid) := bank_op b p op in
      let* l := put_back (ts_pos s) a p' act close in
      Some (mkTstate (set_nth (ts_banks s) k b') l (ts_cash s + paid))
  | TOpen a =>
      match pos_get (ts_pos s) a with
      | Some _ => None
      | None => Some (mkTstate (ts_banks s) ((a, mkTpos 0 0) :: ts_pos s) (ts_cash s))
      end
  | TInUse a n =>
      let* p := pos_get (ts_pos s) a in
      Some (mkTstate (ts_banks s) (pos_set (ts_pos s) a (mkTpos (t_ix p) n)) (ts_cash s))
  | TUpdateIndex now =>
      let* banks := update_index (ts_banks s) now in Some (mkTstate banks (ts_pos s) (ts_cash s))
  | TEdit e reset =>
      let* _ := guard ((0 <=? b_lof e) && ipar_valid (b_par e)) in
      Some (mkTstate (map (edit_bank e reset) (ts_banks s)) (ts_pos s) (ts_cash s))
  | TSerum k n =>
      let* b := nth_error (ts_banks s) k in
      Some (mkTstate (set_nth (ts_banks s) k (set_serum b n)) (ts_pos s) (ts_cash s))
  | TAddBank k =>
      let* b := nth_error (ts_banks s) k in
      Some (mkTstate (ts_banks s ++ [from_existing b]) (ts_pos s) (ts_cash s))
  | TSocialize k a loss now close =>
      let* p := pos_get (ts_pos s) a in
      let* (banks, p', act) := socialize (ts_banks s) k p loss now in
      let* l := put_back (ts_pos s) a p' act close in
      Some (mkTstate banks l (ts_cash s))
  | TWithdrawFees k vault =>
      let* b := nth_error (ts_banks s) k in
      let* _ := guard (0 <=? vault) in
      let* (b', amount) := withdraw_fees b vault in
      Some (mkTstate (set_nth (ts_banks s) k b') (ts_pos s) (ts_cash s - of_int amount))
  | TReceiveFee k n =>
      let* b := nth_error (ts_banks s) k in
      let* _ := guard (0 <=? n) in
      Some (mkTstate (set_nth (ts_banks s) k (set_totals b (b_dep b) (b_bor b) (b_dust b) (b_fees b + of_int n)))
        (ts_pos s) (ts_cash s + of_int n))
  end.

Fixpoint trun (s : tstate) (ops : list top) : option tstate :=
  match ops with [] => Some s | o :: r => let* s' := tstep s o in trun s' r end.

(** token_register.rs:60-130: a new bank *)
Definition fresh_bank (b : bank) : Prop :=
  b_di b = 1000000 * fone /\ b_bi b = 1000000 * fone /\ b_dep b = 0 /\ b_bor b = 0 /\ b_dust b = 0 /\ b_fees b = 0 /\
  b_fw b = 0 /\ 0 <= b_lof b /\ ipar_valid (b_par b) = true.
