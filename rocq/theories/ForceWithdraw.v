(** The instruction token_force_withdraw as a whole: who is paid, bank and position ([force_withdraw_ix] of Auth) and the account's net
    deposits.  /repo/programs/mango-v4/src/instructions/token_force_withdraw.rs:11-120
    Left out: log messages, that the token transfer itself can fail, freeing the position slot.  The instruction does not look at
    health. *)
From Coq Require Import ZArith Bool.
From Verif Require Import Fixed Bank Auth.
Open Scope Z_scope.

(** bank, position, whether it stays active, the token account paid, tokens paid, net deposits *)
Record fwout := mkFW { fw_bank : bank; fw_pos : tpos; fw_active : bool; fw_target : tokacc; fw_paid : Z; fw_net : Z }.
(** token_force_withdraw.rs:11-120; [price]: the oracle price, unchecked (:74-82); net deposits: :84-86 *)
Definition force_withdraw (e : tenv) (a : auth) (owner_ata alternate : tokacc) (ata : Z -> Z) (forced : bool)
  (b : bank) (p : tpos) (vault : Z) (price : fx) (net : Z) : option fwout :=
  let* (b', p', act, target, paid) := force_withdraw_ix e a owner_ata alternate ata forced b p vault in
  Some (mkFW b' p' act target paid (net - to_int (fmul (of_int paid) price))).
