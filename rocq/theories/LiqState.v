(** Health checks of account-changing instructions and the being-liquidated state.
    Healths are inputs: every instruction computes them from the state it sees. *)
From Coq Require Import List ZArith Lia Bool.
From Verif Require Import Fixed Health HealthSpec.
Import ListNotations.
Open Scope Z_scope.

(** [I80F48::ceil] *)
Definition fceil (x : fx) : fx := - ((- x) / fone) * fone.

(** mango_account.rs:393-403 [maybe_recover_from_being_liquidated]: new flag *)
Definition recover (flag : bool) (liq_end : fx) : bool := flag && negb (- fone <? liq_end).
(** mango_account.rs:1393-1419 [check_health_pre], [check_health_pre_checks]: the flag
    afterwards, [None] is BeingLiquidated *)
Definition pre_check (flag : bool) (init liq_end : fx) : option bool :=
  let flag := recover flag init in
  let flag := if flag then recover flag liq_end else flag in
  if flag then None else Some flag.
(** mango_account.rs:1432-1458 [check_health_post_checks] *)
Definition post_check (pre post : fx) : bool :=
  (0 <=? post) || (if post <? of_int (-1000) then fceil pre <=? fceil post else pre <=? post).
(** mango_account.rs:1462-1465 *)
Definition post_check_strict (post : fx) : bool := 0 <=? post.
(** mango_account.rs:1467-1489 [check_liquidatable] *)
Inductive liquidatable := NotLiquidatable | Liquidatable | BecameNotLiquidatable.
Definition check_liquidatable (flag : bool) (maint liq_end : fx) : liquidatable * bool :=
  if flag then if recover true liq_end then (Liquidatable, true) else (BecameNotLiquidatable, false)
  else if 0 <=? maint then (NotLiquidatable, false) else (Liquidatable, true).

(** ** instructions, as far as they use the flag *)
Record healths := mkHs { h_init : fx; h_liq_end : fx; h_maint : fx }.
Inductive instr :=
| INormal       (* perp_place_order.rs:69-137, serum3_place_order.rs:98-459, flash_loan.rs:405-533, token_withdraw.rs:28-160, ... *)
| IDeposit      (* token_deposit.rs:139-150 *)
| ILiquidate    (* token_liq_with_token.rs:47-52,348-350, perp_liq_base_or_positive_pnl.rs:59-64,180-182, perp_liq_negative_pnl_or_bankruptcy.rs:83-88,194-196 *)
| IForceCancel (force : bool)  (* perp_liq_force_cancel_orders.rs:27-66, serum3_liq_force_cancel_orders.rs:66-172: [force]: frozen account or market in force close *)
| IBankrupt (after_phase2 borrow : bool)     (* token_liq_bankruptcy.rs:69-97,293-296 *)
| IForceClose.  (* token_force_close_borrows_with_token.rs:201-207 *)
(** the flag after the instruction, given the healths before and after it; [None]: it fails.
    The instruction is outside of a health region. *)
Definition run_instr (flag : bool) (i : instr) (b a : healths) : option bool :=
  match i with
  | INormal => match pre_check flag (h_init b) (h_liq_end b) with
               | None => None
               | Some f => if post_check (h_init b) (h_init a) then Some f else None
               end
  | IDeposit => if flag then if recover flag (h_liq_end a) then None else Some false else Some flag
  | ILiquidate => match check_liquidatable flag (h_maint b) (h_liq_end b) with
                  | (Liquidatable, f) => Some (recover f (h_liq_end a))
                  | (_, f) => Some f
                  end
  | IForceCancel force => match check_liquidatable flag (h_maint b) (h_liq_end b) with
                          | (Liquidatable, f) => Some (recover f (h_liq_end a))
                          | (_, f) => Some (if force then recover f (h_liq_end a) else f)
                          end
  | IBankrupt p bw => if p && bw then Some (recover true (h_liq_end a)) else None
  | IForceClose => Some (recover flag (h_liq_end a))
  end.
Fixpoint run_history (flag : bool) (H : list (instr * healths * healths)) : option bool :=
  match H with
  | [] => Some flag
  | (i, b, a) :: H' => match run_instr flag i b a with None => None | Some f => run_history f H' end
  end.

(** ** maintenance weights while they are being changed, bank.rs:479-500 *)
Record shift := mkShift { sh_start : Z; sh_end : Z; sh_inv : fx; sh_asset : fx; sh_liab : fx }.
Definition maint_weights (aw lw : fx) (s : shift) (now : Z) : fx * fx :=
  if (sh_inv s =? 0) || (now <=? sh_start s) then (aw, lw)
  else if sh_end s <=? now then (sh_asset s, sh_liab s)
  else
    let scale := fmul (of_int (now - sh_start s)) (sh_inv s) in
    (aw + fmul scale (sh_asset s - aw), lw + fmul scale (sh_liab s - lw)).
(** token_edit.rs:452-461 *)
Definition shift_inv (st en : Z) : fx := if en <=? st then 0 else fdiv fone (of_int (en - st)).
