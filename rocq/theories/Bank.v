(** Token banks: deposits, withdrawals, fees, dust and limits.
    Models src/state/bank.rs, src/state/mango_account_components.rs:50-110 and the
    bank part of instructions/token_deposit.rs, token_withdraw.rs,
    token_liq_bankruptcy.rs.
    [None]: the call fails or panics, so the transaction reverts. *)
From Coq Require Import List ZArith Lia Bool.
From Verif Require Import OrderTree Keys Fixed PerpTypes Interest.
Import ListNotations.
Open Scope Z_scope.

Notation "'let*' x ':=' e 'in' f" := (match e with Some x => f | None => None end)
  (at level 200, x pattern, e at level 100, f at level 200, right associativity).
Definition guard (b : bool) : option unit := if b then Some tt else None.

(** bank.rs:29-225 [Bank], the fields used below.  [b_stable] is
    [I80F48::from_num(stable_price_model.stable_price)], [b_max_util] is
    [ONE - from_num(min_vault_to_deposits_ratio)] (bank.rs:517-521). *)
Record bank := mkBank {
  b_di : fx;              (* deposit_index *)
  b_bi : fx;              (* borrow_index *)
  b_dep : fx;             (* indexed_deposits *)
  b_bor : fx;             (* indexed_borrows *)
  b_dust : fx;
  b_fees : fx;            (* collected_fees_native *)
  b_lof : fx;             (* loan_origination_fee_rate *)
  b_win_start : Z;        (* last_net_borrows_window_start_ts : u64 *)
  b_win_size : Z;         (* net_borrow_limit_window_size_ts : u64 *)
  b_win_net : Z;          (* net_borrows_in_window : i64 *)
  b_win_limit : Z;        (* net_borrow_limit_per_window_quote : i64 *)
  b_stable : fx;
  b_dep_limit : Z;        (* deposit_limit : u64, 0 = none *)
  b_serum : Z;            (* potential_serum_tokens : u64 *)
  b_reduce : Z;           (* reduce_only : u8 *)
  b_max_util : fx;
  b_upd : Z;              (* index_last_updated : u64 *)
  b_par : ipar;
  b_fw : Z }.             (* fees_withdrawn : u64 *)

(** mango_account_components.rs:20-45 [TokenPosition]; the display-only interest
    counters (and [previous_index], which only they use) are left out *)
Record tpos := mkTpos { t_ix : fx; t_use : Z }.

Definition set_totals (b : bank) (dep bor dust fees : fx) : bank :=
  mkBank (b_di b) (b_bi b) dep bor dust fees (b_lof b) (b_win_start b) (b_win_size b) (b_win_net b) (b_win_limit b)
    (b_stable b) (b_dep_limit b) (b_serum b) (b_reduce b) (b_max_util b) (b_upd b) (b_par b) (b_fw b).
Definition set_window (b : bank) (start net : Z) : bank :=
  mkBank (b_di b) (b_bi b) (b_dep b) (b_bor b) (b_dust b) (b_fees b) (b_lof b) start (b_win_size b) net (b_win_limit b)
    (b_stable b) (b_dep_limit b) (b_serum b) (b_reduce b) (b_max_util b) (b_upd b) (b_par b) (b_fw b).
Definition set_index (b : bank) (di bi : fx) (fees : fx) (upd : Z) : bank :=
  mkBank di bi (b_dep b) (b_bor b) (b_dust b) fees (b_lof b) (b_win_start b) (b_win_size b) (b_win_net b) (b_win_limit b)
    (b_stable b) (b_dep_limit b) (b_serum b) (b_reduce b) (b_max_util b) upd (b_par b) (b_fw b).
Definition set_serum (b : bank) (n : Z) : bank :=
  mkBank (b_di b) (b_bi b) (b_dep b) (b_bor b) (b_dust b) (b_fees b) (b_lof b) (b_win_start b) (b_win_size b) (b_win_net b)
    (b_win_limit b) (b_stable b) (b_dep_limit b) n (b_reduce b) (b_max_util b) (b_upd b) (b_par b) (b_fw b).
Definition set_fw (b : bank) (fw : Z) : bank :=
  mkBank (b_di b) (b_bi b) (b_dep b) (b_bor b) (b_dust b) (b_fees b) (b_lof b) (b_win_start b) (b_win_size b) (b_win_net b)
    (b_win_limit b) (b_stable b) (b_dep_limit b) (b_serum b) (b_reduce b) (b_max_util b) (b_upd b) (b_par b) fw.

(** mango_account_components.rs:80-86 [TokenPosition::native] *)
Definition native (b : bank) (p : tpos) : fx :=
  if 0 <? t_ix p then fmul (t_ix p) (b_di b) else fmul (t_ix p) (b_bi b).
Definition in_use (p : tpos) : bool := 0 <? t_use p.
(** bank.rs:470-477 *)
Definition native_borrows (b : bank) : fx := fmul (b_bi b) (b_bor b).
Definition native_deposits (b : bank) : fx := fmul (b_di b) (b_dep b).
(** bank.rs:448-454 *)
Definition deposits_reduce_only (b : bank) : bool := b_reduce b =? 1.
Definition borrows_reduce_only (b : bank) : bool := (b_reduce b =? 1) || (b_reduce b =? 2).

(** i80f48.rs:8-17 [clamp_to_i64] *)
Definition clamp_i64 (x : fx) : Z := Z.max i64_min (Z.min i64_max (to_int x)).

(** bank.rs:917-931 [update_net_borrows] *)
Definition update_net_borrows (b : bank) (amount : fx) (now : Z) : option bank :=
  let amt := clamp_i64 (fceil amount) in
  if b_win_start b + b_win_size b <=? now then
    if b_win_size b =? 0 then None
    else Some (set_window b (now / b_win_size b * b_win_size b) amt)
  else let* n := chk_i64 (b_win_net b + amt) in Some (set_window b (b_win_start b) n).

(** the closure [div_rounding_up], bank.rs:590-597; [I80F48::DELTA] is 1 *)
Definition div_rounding_up (n index : fx) : option fx :=
  let* i := cdiv n index in Some (if fmul i index <? n then i + 1 else i).

(** bank.rs:628-633: the last part of [deposit_internal] *)
Definition add_deposits (b : bank) (p : tpos) (amount : fx) : option (bank * tpos * bool) :=
  let* c := div_rounding_up amount (b_di b) in
  Some (set_totals b (b_dep b + c) (b_bor b) (b_dust b) (b_fees b), mkTpos (t_ix p + c) (t_use p), true).

(** bank.rs:573-634 [deposit_internal] *)
Definition deposit_internal (b : bank) (p : tpos) (amount : fx) (dusting : bool) (now : Z)
  : option (bank * tpos * bool) :=
  let* _ := guard (0 <=? amount) in
  let np := native b p in
  if np <? 0 then
    let* b := update_net_borrows b (Z.max np (- amount)) now in
    let new_native := np + amount in
    let* c := div_rounding_up amount (b_bi b) in
    let nix := t_ix p + c in
    if nix <? 0 then
      Some (set_totals b (b_dep b) (b_bor b - c) (b_dust b) (b_fees b), mkTpos nix (t_use p), true)
    else if (new_native <? fone) && dusting then
      Some (set_totals b (b_dep b) (b_bor b + t_ix p) (b_dust b + new_native) (b_fees b), mkTpos 0 (t_use p), false)
    else
      add_deposits (set_totals b (b_dep b) (b_bor b + t_ix p) (b_dust b) (b_fees b)) (mkTpos 0 (t_use p))
        (Z.max new_native 0)
  else add_deposits b p amount.

(** bank.rs:537-563.  [update_cumulative_interest] (display only) is left out *)
Definition deposit (b : bank) (p : tpos) (amount : fx) (now : Z) :=
  deposit_internal b p amount (negb (in_use p)) now.
Definition deposit_with_dusting (b : bank) (p : tpos) (amount : fx) (now : Z) : option (bank * tpos * bool) :=
  let* (b', p', act) := deposit_internal b p amount true now in Some (b', p', act || in_use p').

(** bank.rs:287-297 [WithdrawResult] *)
Record wres := mkWres { w_active : bool; w_fee : fx; w_loan : fx }.

(** bank.rs:758-781: borrowing [amount] *)
Definition add_borrows (b : bank) (p : tpos) (amount : fx) (with_fee : bool) (now : Z)
  : option (bank * tpos * wres) :=
  let fee := if with_fee then fmul (b_lof b) amount else 0 in
  let amount := amount + fee in
  let* c := cdiv amount (b_bi b) in
  let b := set_totals b (b_dep b) (b_bor b + c) (b_dust b) (b_fees b + fee) in
  let* b := update_net_borrows b amount now in
  Some (b, mkTpos (t_ix p - c) (t_use p), mkWres true fee amount).

(** bank.rs:715-781 [withdraw_internal] *)
Definition withdraw_internal (b : bank) (p : tpos) (amount : fx) (with_fee dusting : bool) (now : Z)
  : option (bank * tpos * wres) :=
  let* _ := guard (0 <=? amount) in
  let np := native b p in
  if negb (np <? 0) then
    let new_native := np - amount in
    if negb (new_native <? 0) then
      if (new_native <? fone) && dusting then
        Some (set_totals b (b_dep b - t_ix p) (b_bor b) (b_dust b + new_native) (b_fees b),
              mkTpos 0 (t_use p), mkWres false 0 0)
      else
        let* c := cdiv amount (b_di b) in
        Some (set_totals b (b_dep b - c) (b_bor b) (b_dust b) (b_fees b),
              mkTpos (t_ix p - c) (t_use p), mkWres true 0 0)
    else
      add_borrows (set_totals b (b_dep b - t_ix p) (b_bor b) (b_dust b) (b_fees b)) (mkTpos 0 (t_use p))
        (- new_native) with_fee now
  else add_borrows b p amount with_fee now.

(** bank.rs:644-712 *)
Definition withdraw_without_fee (b : bank) (p : tpos) (amount : fx) (now : Z) : option (bank * tpos * bool) :=
  let* (b', p', r) := withdraw_internal b p amount false (negb (in_use p)) now in Some (b', p', w_active r).
Definition withdraw_without_fee_with_dusting (b : bank) (p : tpos) (amount : fx) (now : Z)
  : option (bank * tpos * bool) :=
  let* (b', p', r) := withdraw_internal b p amount false true now in Some (b', p', w_active r || in_use p').
Definition withdraw_with_fee (b : bank) (p : tpos) (amount : fx) (now : Z) : option (bank * tpos * wres) :=
  withdraw_internal b p amount true (negb (in_use p)) now.

(** bank.rs:784-809 [withdraw_loan_origination_fee] *)
Definition withdraw_loan_origination_fee (b : bank) (p : tpos) (already : fx) (now : Z)
  : option (bank * tpos * wres) :=
  let fee := fmul (b_lof b) already in
  let b := set_totals b (b_dep b) (b_bor b) (b_dust b) (b_fees b + fee) in
  let* (b', p', r) := withdraw_internal b p fee false (negb (in_use p)) now in
  Some (b', p', mkWres (w_active r) fee 0).

(** bank.rs:812-822 [dust_if_possible] *)
Definition dust_if_possible (b : bank) (p : tpos) (now : Z) : option (bank * tpos * bool) :=
  if in_use p then Some (b, p, true)
  else
    let n := native b p in
    if (0 <=? n) && (n <? fone) then withdraw_without_fee b p 0 now else Some (b, p, true).

(** bank.rs:825-854 *)
Definition change_without_fee (b : bank) (p : tpos) (amount : fx) (now : Z) : option (bank * tpos * bool) :=
  if 0 <=? amount then deposit b p amount now else withdraw_without_fee b p (- amount) now.
Definition change_with_fee (b : bank) (p : tpos) (amount : fx) (now : Z) : option (bank * tpos * wres) :=
  if 0 <=? amount then
    let* (b', p', act) := deposit b p amount now in Some (b', p', mkWres act 0 0)
  else withdraw_with_fee b p (- amount) now.

Definition fx_max : fx := 2 ^ 127 - 1.

(** bank.rs:933-944 [remaining_net_borrows_quote] *)
Definition remaining_net_borrows_quote (b : bank) (oracle : fx) : fx :=
  if (b_win_net b <? 0) || (b_win_limit b <? 0) then fx_max
  else of_int (b_win_limit b) - Z.max oracle (b_stable b) * b_win_net b.
(** bank.rs:946-957 [check_net_borrows]; [true]: passes *)
Definition check_net_borrows (b : bank) (oracle : fx) : bool := negb (remaining_net_borrows_quote b oracle <? 0).

(** bank.rs:959-973 *)
Definition remaining_deposits_until_limit (b : bank) : fx :=
  if b_dep_limit b =? 0 then fx_max
  else of_int (b_dep_limit b) - (fmul (b_di b) (b_dep b + 1) + of_int (b_serum b)).
(** bank.rs:975-1000 *)
Definition check_deposit_and_oo_limit (b : bank) : bool :=
  (b_dep_limit b =? 0) || negb (of_int (b_dep_limit b) - (native_deposits b + of_int (b_serum b)) <? 0).

(** bank.rs:523-538 [enforce_max_utilization] *)
Definition enforce_max_utilization (b : bank) (max : fx) : bool :=
  negb (fmul max (native_deposits b) <? native_borrows b).

(** bank.rs:860-912 [checked_transfer_with_fee] *)
Definition checked_transfer (b : bank) (src : tpos) (src_amount : fx) (tgt : tpos) (tgt_amount : fx) (now : Z) (oracle : fx)
  : option (bank * tpos * tpos * wres * bool) :=
  let before_bor := b_bor b in
  let before_dep := b_dep b in
  let* (b, src, r) :=
    (if negb (src_amount =? 0) then
       let* (b, src, r) := withdraw_with_fee b src src_amount now in
       let* _ := guard ((0 <=? t_ix src) || negb (borrows_reduce_only b)) in
       Some (b, src, r)
     else Some (b, src, mkWres true 0 0)) in
  let* (b, tgt, act) :=
    (if negb (tgt_amount =? 0) then
       let* (b, tgt, act) := deposit b tgt tgt_amount now in
       let* _ := guard ((t_ix tgt <=? 0) || negb (deposits_reduce_only b)) in
       Some (b, tgt, act)
     else Some (b, tgt, true)) in
  let* _ := (if before_bor + 1 <? b_bor b then guard (check_net_borrows b oracle) else Some tt) in
  let* _ := (if before_dep + 1 <? b_dep b then guard (check_deposit_and_oo_limit b) else Some tt) in
  Some (b, src, tgt, r, act).

(** token_deposit.rs:39-113, the part that concerns bank and position: returns the
    amount of tokens moved into the vault *)
Definition token_deposit (b : bank) (p : tpos) (amount : Z) (reduce_only : bool) (now : Z)
  : option (bank * tpos * bool * Z) :=
  let* _ := guard (0 <? amount) in
  let amt := if reduce_only || deposits_reduce_only b
             then Z.min (fceil (Z.abs (Z.min (native b p) 0))) (of_int amount)
             else of_int amount in
  let* _ := (if deposits_reduce_only b then guard (reduce_only || (amt =? of_int amount)) else Some tt) in
  let* (b', p', act) := deposit b p amt now in
  let* _ := (if 0 <? t_ix p' then guard (check_deposit_and_oo_limit b') else Some tt) in
  Some (b', p', act, to_int amt).

Definition U64_MAX : Z := 2 ^ 64 - 1.
(** token_withdraw.rs:49-107, :203-228: bank and position; [vault] is the vault's
    balance, [oracle_ok] the outcome of the confidence and staleness check *)
Definition token_withdraw (b : bank) (p : tpos) (amount : Z) (allow_borrow : bool) (now : Z) (vault : Z)
  (oracle : fx) (oracle_ok : bool) : option (bank * tpos * wres * Z) :=
  let* _ := guard (0 <? amount) in
  let np := native b p in
  if (amount =? U64_MAX) && negb allow_borrow && (np <? 0) then Some (b, p, mkWres true 0 0, 0)
  else
    let amount := if (amount =? U64_MAX) && negb allow_borrow then to_int np else amount in
    let is_borrow := np <? of_int amount in
    let* _ := guard (allow_borrow || negb is_borrow) in
    let* _ := (if borrows_reduce_only b then guard (negb is_borrow) else Some tt) in
    let* (b', p', r) := withdraw_with_fee b p (of_int amount) now in
    let* _ := guard (amount <=? vault) in
    let* _ := (if is_borrow
               then guard (enforce_max_utilization b' (b_max_util b') && oracle_ok && check_net_borrows b' oracle)
               else guard (enforce_max_utilization b' fone)) in
    Some (b', p', r, amount).
