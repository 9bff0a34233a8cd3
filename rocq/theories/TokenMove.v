(** The instructions token_withdraw and token_deposit as a whole: bank and position ([token_withdraw],
    [token_deposit] of Bank), the account's health checks, its mark and its net deposits.
    Left out: log messages, finding the position slot (the position [p] is the one that
    [ensure_token_position] returns, fresh or not), and that the token transfer itself can fail. *)
From Coq Require Import List ZArith Lia Bool.
From Verif Require Import Interest Bank Health LiqState TokenLiq Scaling Fixed.
Import ListNotations.
Open Scope Z_scope.

(** the active token positions of the account, when position and bank of token [wc_index c] are
    [p] and [b]: cache.rs:1276-1332, as inputs of [build_cache] *)
Fixpoint positions_with (c : wcfg) (b : bank) (p : tpos) (L : list pos_in) : option (list pos_in) :=
  match L with
  | [] => Some []
  | q :: L' =>
      let* R := positions_with c b p L' in
      if ti_index (pin_info q) =? wc_index c then
        let* t := token_info c b (ti_prices (pin_info q)) (native b p) in
        Some (mkPosIn (pin_available q) (pin_oracle_ok q) (0 <=? t_ix p) t :: R)
      else Some (q :: R)
  end.

(** ** token_withdraw.rs:16-231 *)
(** bank settings, time, vault balance, oracle price and whether it can be trusted, whether the
    signer is a delegate, whether the target is the owner's associated token account, whether the
    account is in a health region *)
Record wenv := mkWE {
  we_cfg : wcfg; we_now : Z; we_vault : Z; we_price : fx; we_price_ok : bool;
  we_delegate : bool; we_owner_ata : bool; we_region : bool }.
(** bank, position, whether it stays active, tokens paid out, mark, net deposits, the cache the last
    health check used *)
Record wout := mkWO {
  wo_bank : bank; wo_pos : tpos; wo_active : bool; wo_paid : Z; wo_flag : bool; wo_net : Z; wo_cache : option cache }.
(** :16-231; [L], [O], [P]: what the health cache is built from.  Pre-check: :28-46, withdrawing
    everything of a borrow: :56-62, net deposits: :129-131, delegates: :134-155, health: :158-185 *)
Definition withdraw_ix (e : wenv) (b : bank) (p : tpos) (L : list pos_in) (O : list serum_in) (P : list pinfo)
  (flag : bool) (net : Z) (amount : Z) (allow_borrow : bool) : option wout :=
  let* _ := guard (0 <? amount) in
  let* (flag, pre) :=
    if we_region e then Some (flag, None)
    else
      let* hc := build_cache true L O P in
      let* h := health hc HInit in
      let* h_end := health hc HLiqEnd in
      let* flag := pre_check flag h h_end in Some (flag, Some (hc, h)) in
  if (amount =? U64_MAX) && negb allow_borrow && (native b p <? 0) then Some (mkWO b p true 0 flag net None)
  else
    let* (b', p', r, paid) := token_withdraw b p amount allow_borrow (we_now e) (we_vault e) (we_price e) (we_price_ok e) in
    let* _ := guard (negb (we_delegate e) || (we_owner_ata e && negb (w_active r))) in
    let* hc' :=
      match pre with
      | None => Some None
      | Some (hc, h) =>
          match nth_info hc (wc_index (we_cfg e)) with
          | Some (_, t) =>
              let* w := adjusted_weights (we_cfg e) b' (ti_prices t) in
              let* hc' := adjust_token_balance hc (wc_index (we_cfg e)) (native b' p' - native b p) w in
              let* post := health hc' HInit in
              let* _ := guard (post_check h post) in Some (Some hc')
          | None =>
              let* _ := guard (negb (native b p <? of_int paid)) in
              let* _ := guard (post_check_strict h) in Some (Some hc)
          end
      end in
    Some (mkWO b' p' (w_active r) paid flag (net - to_int (fmul (of_int paid) (we_price e))) hc').

(** ** token_deposit.rs:39-265 *)
(** bank settings, time, oracle price and whether it can be trusted, whether the account is in a
    health region, the deposit limit of the group, whether the position existed *)
Record denv := mkDE {
  de_cfg : wcfg; de_now : Z; de_price : fx; de_price_ok : bool; de_region : bool; de_limit : Z; de_exists : bool }.
(** bank, position, whether it is closed, tokens paid in, mark, net deposits, the health cache *)
Record dout := mkDO {
  do_bank : bank; do_pos : tpos; do_closed : bool; do_paid : Z; do_flag : bool; do_net : Z; do_cache : cache }.
(** [existing]: token_deposit_into_existing (:246-265), else token_deposit (:192-243).  Bank: :47-103
    ([token_deposit]), net deposits: :105-107, health: :119-150, group limit: :152-177 *)
Definition deposit_ix (e : denv) (existing : bool) (b : bank) (p : tpos) (L : list pos_in) (O : list serum_in) (P : list pinfo)
  (flag : bool) (net : Z) (amount : Z) (reduce_only : bool) : option dout :=
  let* _ := guard (de_exists e || (negb existing && de_price_ok e)) in
  let* (b', p', active, paid) := token_deposit b p amount reduce_only (de_now e) in
  let* L' := positions_with (de_cfg e) b' p' L in
  let* hc := build_cache true L' O P in
  let* flag' :=
    if negb (de_region e) && flag then
      let* h := health hc HLiqEnd in
      if recover flag h then None else Some false
    else Some flag in
  let* _ :=
    if 0 <? de_limit e then
      let* _ := guard (Nat.eqb (length (hc_tokens hc)) (length L')) in
      let* (assets, _) := assets_and_liabs hc HInit true in
      guard (to_int assets <=? de_limit e)
    else Some tt in
  Some (mkDO b' p' (negb existing && negb active) paid flag' (net + to_int (fmul (of_int paid) (de_price e))) hc).
