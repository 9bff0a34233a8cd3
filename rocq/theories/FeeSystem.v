(** The fees of perp markets after they are paid by positions: instructions/admin_perp_withdraw_fees.rs, and the history of a
    settle token with its perp markets. *)
From Coq Require Import List ZArith Lia Bool.
From Verif Require Import OrderTree Keys Fixed PerpTypes Interest Bank BankSystem.
Import ListNotations.
Open Scope Z_scope.

(** the two counters of a market: [fees_settled] and [fees_withdrawn] (perp_market.rs:139, :190) *)
Record pfees := mkPF { pf_settled : fx; pf_wd : Z }.
(** perp_create_market.rs:81, :95 *)
Definition pf_new : pfees := mkPF 0 0.
(** admin_perp_withdraw_fees.rs:6-21; the u64 subtraction panics below zero; [vault]: the tokens held by the bank's vault *)
Definition admin_perp_withdraw_fees (m : pfees) (vault : Z) : option (pfees * Z) :=
  let fees := to_int (pf_settled m) - pf_wd m in
  let* _ := guard (0 <=? fees) in
  let amount := Z.min fees vault in
  Some (mkPF (pf_settled m) (pf_wd m + amount), amount).

(** One settle token, its banks and positions ([fs_tok]), its perp markets and the tokens in the vaults of its banks ([fs_vault], as a
    fixed point number). *)
Record fsys := mkFS { fs_tok : tstate; fs_mks : list pfees; fs_vault : fx }.
Inductive fop :=
| FToken (o : top)                                   (* anything else that happens to the token: what is paid in reaches the vault *)
| FMarket                                            (* perp_create_market.rs *)
| FPay (j k : nat) (a : Z) (x : fx) (now : Z)        (* perp_settle_fees.rs:64-104 for market [j], bank [k], account [a], settlement [x] *)
| FWithdraw (j : nat) (vault : Z).                   (* admin_perp_withdraw_fees.rs *)
Definition fstep (s : fsys) (o : fop) : option fsys :=
  match o with
  | FToken o => let* t := tstep (fs_tok s) o in Some (mkFS t (fs_mks s) (fs_vault s + (ts_cash t - ts_cash (fs_tok s))))
  | FMarket => Some (mkFS (fs_tok s) (fs_mks s ++ [pf_new]) (fs_vault s))
  | FPay j k a x now =>
      let* m := nth_error (fs_mks s) j in
      let* _ := guard (0 <? x) in
      let* b := nth_error (ts_banks (fs_tok s)) k in
      let* p := pos_get (ts_pos (fs_tok s)) a in
      let* (b', p', _) := withdraw_without_fee b p x now in
      Some (mkFS (mkTstate (set_nth (ts_banks (fs_tok s)) k b') (pos_set (ts_pos (fs_tok s)) a p') (ts_cash (fs_tok s) - x))
        (set_nth (fs_mks s) j (mkPF (pf_settled m + x) (pf_wd m))) (fs_vault s))
  | FWithdraw j vault =>
      let* m := nth_error (fs_mks s) j in
      let* _ := guard (0 <=? vault) in
      let* (m', amount) := admin_perp_withdraw_fees m vault in
      Some (mkFS (fs_tok s) (set_nth (fs_mks s) j m') (fs_vault s - of_int amount))
  end.
Fixpoint frun (s : fsys) (ops : list fop) : option fsys :=
  match ops with [] => Some s | o :: r => let* s' := fstep s o in frun s' r end.
