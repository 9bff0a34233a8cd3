(** C27, C28, C52 for transfers between two accounts within a bank (used by token
    conditional swaps). *)
From Coq Require Import List ZArith Lia Bool.
From Verif Require Import Fixed Interest Bank BankFacts BankSystem BankSpec BankInv BankResults TcsFacts TcsMoney PropInterest PropBank.
Import ListNotations.
Open Scope Z_scope.

(** A transfer after which the bank's borrows exceed those before by more than the
    smallest unit succeeds only if the net borrows of the window are within the limit. *)
Theorem C27_transfer_limit (b b' : bank) (src src' tgt tgt' : tpos) (x y now oracle : Z) (r : wres) (act : bool) :
  checked_transfer b src x tgt y now oracle = Some (b', src', tgt', r, act) -> b_bor b + 1 < b_bor b' ->
  b_win_net b' < 0 \/ b_win_limit b' < 0 \/ Z.max oracle (b_stable b') * b_win_net b' <= b_win_limit b' * fone.
Proof.
  intros H Hlt. unfold checked_transfer in H.
  destruct (if negb (x =? 0) then _ else _) as [[[b1 src1] r1]|]; [|discriminate].
  destruct (if negb (y =? 0) then _ else _) as [[[b2 tgt1] act1]|]; [|discriminate].
  inv_opt H. apply some_inj in H. injection H as <- <- <- <- <-.
  destruct (Z.ltb_spec (b_bor b + 1) (b_bor b2)); [|lia]. destruct u; apply guard_some in O. apply check_net_borrows_iff. exact O.
Qed.
Print Assumptions C27_transfer_limit.

(** A transfer after which the bank's deposits exceed those before by more than the
    smallest unit succeeds only if deposits and open-order tokens are within the
    deposit limit. *)
Theorem C28_transfer_limit (b b' : bank) (src src' tgt tgt' : tpos) (x y now oracle : Z) (r : wres) (act : bool) :
  checked_transfer b src x tgt y now oracle = Some (b', src', tgt', r, act) -> b_dep b + 1 < b_dep b' ->
  b_dep_limit b' = 0 \/ b_di b' * b_dep b' / fone + b_serum b' * fone <= b_dep_limit b' * fone.
Proof.
  intros H Hlt. unfold checked_transfer in H.
  destruct (if negb (x =? 0) then _ else _) as [[[b1 src1] r1]|]; [|discriminate].
  destruct (if negb (y =? 0) then _ else _) as [[[b2 tgt1] act1]|]; [|discriminate].
  inv_opt H. apply some_inj in H. injection H as <- <- <- <- <-.
  destruct (Z.ltb_spec (b_dep b + 1) (b_dep b2)); [|lia]. destruct u0; apply guard_some in O0.
  unfold check_deposit_and_oo_limit, native_deposits, fmul, of_int in O0. apply orb_prop in O0 as [E|E]; [left|right].
  - apply Z.eqb_eq. exact E.
  - apply negb_true_iff, Z.ltb_ge in E. lia.
Qed.
Print Assumptions C28_transfer_limit.

(** The same for a token deposit that leaves the account with a deposit. *)
Theorem C28_deposit_limit (b b' : bank) (p p' : tpos) (amount now paid : Z) (ro act : bool) :
  token_deposit b p amount ro now = Some (b', p', act, paid) -> 0 < t_ix p' ->
  b_dep_limit b' = 0 \/ b_di b' * b_dep b' / fone + b_serum b' * fone <= b_dep_limit b' * fone.
Proof.
  intros H Hp. apply token_deposit_inv in H as (_ & H). cbn zeta in H. destruct H as (_ & _ & _ & E). specialize (E Hp).
  unfold check_deposit_and_oo_limit, native_deposits, fmul, of_int in E. apply orb_prop in E as [E|E]; [left|right].
  - apply Z.eqb_eq. exact E.
  - apply negb_true_iff, Z.ltb_ge in E. lia.
Qed.
Print Assumptions C28_deposit_limit.

(** In a bank that allows no new borrows a transfer leaves the payer without debt (or
    untouched), in a reduce-only bank the receiver without a deposit (or untouched). *)
Theorem C52_transfer (b b' : bank) (src src' tgt tgt' : tpos) (x y now oracle : Z) (r : wres) (act : bool) :
  0 < b_di b -> 0 < b_bi b -> 0 <= b_lof b -> 0 <= x -> 0 <= y ->
  checked_transfer b src x tgt y now oracle = Some (b', src', tgt', r, act) ->
  (b_reduce b = 1 \/ b_reduce b = 2 -> 0 <= t_ix src' \/ src' = src) /\
  (b_reduce b = 1 -> t_ix tgt' <= 0 \/ tgt' = tgt).
Proof.
  intros Hd Hb Hl Hx Hy H. apply transfer_step in H; [|split; assumption|assumption..].
  destruct H as (_ & _ & _ & _ & _ & _ & _ & _ & _ & _ & _ & _ & _ & _ & A & B).
  split; intros E; [apply A|apply B].
  - unfold borrows_reduce_only. destruct E as [-> | ->]; reflexivity.
  - unfold deposits_reduce_only. rewrite E. reflexivity.
Qed.
Print Assumptions C52_transfer.

(** transferring 900 tokens that the payer does not have, 1100 tokens are over the limit
    of 1000 quote; deposits up to the limit of 2000 tokens; in no-borrow mode nothing *)
Definition with_mode (b : bank) (m : Z) : bank :=
  mkBank (b_di b) (b_bi b) (b_dep b) (b_bor b) (b_dust b) (b_fees b) (b_lof b) (b_win_start b) (b_win_size b) (b_win_net b)
    (b_win_limit b) (b_stable b) (b_dep_limit b) (b_serum b) m (b_max_util b) (b_upd b) (b_par b) (b_fw b).
Example transfer_ex :
  (exists b' s' t' r, checked_transfer ex_limited_bank (mkTpos 0 0) (of_int 900) (mkTpos 0 0) (of_int 900) 5 fone = Some (b', s', t', r, true) /\
    b_bor ex_limited_bank + 1 < b_bor b' /\ b_dep ex_limited_bank + 1 < b_dep b' /\ t_ix s' < 0 /\ 0 < t_ix t') /\
  checked_transfer ex_limited_bank (mkTpos 0 0) (of_int 1001) (mkTpos 0 0) 0 5 fone = None /\
  checked_transfer ex_limited_bank (mkTpos 0 0) (of_int 990) (mkTpos 0 0) (of_int 990) 5 fone = None /\
  checked_transfer (with_mode ex_limited_bank 2) (mkTpos 0 0) (of_int 900) (mkTpos 0 0) (of_int 900) 5 fone = None /\
  (exists b' p', token_deposit ex_limited_bank (mkTpos 0 0) 900 false 5 = Some (b', p', true, 900) /\ 0 < t_ix p') /\
  token_deposit ex_limited_bank (mkTpos 0 0) 990 false 5 = None.
Proof.
  split.
  { do 4 eexists. split; [vm_compute; reflexivity|]. do 3 (split; [apply Z.ltb_lt; vm_compute; reflexivity|]). apply Z.ltb_lt; vm_compute; reflexivity. }
  split; [vm_compute; reflexivity|]. split; [vm_compute; reflexivity|]. split; [vm_compute; reflexivity|].
  split; [do 2 eexists; split; [vm_compute; reflexivity|apply Z.ltb_lt; vm_compute; reflexivity]|vm_compute; reflexivity].
Qed.

(** ** C25: the fee on a loan that was made before (borrows out of spot market settlement) *)
(** Rate times the loan, credited to the bank, and the position pays exactly this and no second fee. *)
Theorem C25_settled_loan (b b' : bank) (p p' : tpos) (loan now : Z) (r : wres) :
  0 < b_di b -> 0 < b_bi b -> 0 <= b_lof b -> withdraw_loan_origination_fee b p loan now = Some (b', p', r) ->
  w_fee r = b_lof b * loan / fone /\ w_loan r = 0 /\ 0 <= w_fee r /\ b_fees b' = b_fees b + w_fee r /\
  let change := worth (b_di b) (b_bi b) (t_ix p') - worth (b_di b) (b_bi b) (t_ix p) + (b_dust b' - b_dust b) * fone in
  - w_fee r * fone - fone < change < - w_fee r * fone + Z.max (b_di b) (b_bi b).
Proof.
  intros Hd Hb Hl H. unfold withdraw_loan_origination_fee in H. set (fee := fmul (b_lof b) loan) in *.
  set (b0 := set_totals b (b_dep b) (b_bor b) (b_dust b) (b_fees b + fee)) in *.
  destruct (withdraw_internal _ _ _ _ _ _) as [[[b1 p1] r1]|] eqn:E; [|discriminate]. injection H as <- <- <-.
  apply withdraw_spec in E; [|split; assumption|exact Hl]. destruct E as (E0 & _ & _ & _ & Ef & E1 & _ & _ & _ & A & B & _).
  cbn [andb] in E1. rewrite E1 in *. cbn [w_fee w_loan]. split; [reflexivity|]. split; [reflexivity|]. split; [exact E0|].
  split; [rewrite Ef; change (b_fees b0) with (b_fees b + fee); lia|]. cbv zeta.
  change (b_dust b0) with (b_dust b) in A, B. change (b_di b0) with (b_di b) in B. change (b_bi b0) with (b_bi b) in B.
  change (pv b0) with (pv b) in A, B. rewrite !pv_worth in A, B. split; lia.
Qed.
Example C25_settled_loan_ex : exists b' p' r, withdraw_loan_origination_fee ex_bank (mkTpos fone 0) (of_int 2000000) 5 = Some (b', p', r) /\
  w_fee r = 2000000 * (fone / 2000) /\ 0 < t_ix p' < fone.
Proof. eexists _, _, _. split; [vm_compute; reflexivity|]. split; [vm_compute; reflexivity|]. split; apply Z.ltb_lt; vm_compute; reflexivity. Qed.
Print Assumptions C25_settled_loan.

(** ** C53: a withdrawal pays out what is in the vault, what was asked for, or, when everything is asked for, the whole
    tokens of the deposit *)
Theorem C53_paid_from_vault (b b' : bank) (p p' : tpos) (amount now vault oracle paid : Z) (ab ok : bool) (r : wres) :
  0 < b_di b -> 0 < b_bi b -> 0 <= vault ->
  token_withdraw b p amount ab now vault oracle ok = Some (b', p', r, paid) ->
  0 <= paid <= vault /\ (paid = amount \/ amount = 2 ^ 64 - 1 /\ ab = false /\ paid = Z.max 0 (native b p / fone)).
Proof.
  intros Hd Hb V H. apply token_withdraw_inv in H as (Ha & [(E & -> & N & _ & _ & -> & _)|(E & W & Hv & _)]).
  - split; [lia|]. right. split; [exact E|]. split; [reflexivity|]. rewrite Z.max_l; [reflexivity|].
    pose proof (Z.div_lt_upper_bound (native b p) fone 0 fone_pos ltac:(lia)). lia.
  - unfold withdraw_with_fee, withdraw_internal in W. destruct (Z.leb_spec 0 (of_int paid)) as [W0|]; cbn [guard] in W; [|discriminate].
    assert (P0 : 0 <= paid) by (unfold of_int in W0; pose proof fone_pos; nia). split; [lia|].
    destruct (Z.eqb_spec amount U64_MAX) as [->|]; cbn [andb] in E; [|left; exact E]. destruct ab; cbn [negb] in E; [left; exact E|].
    right. split; [reflexivity|]. split; [reflexivity|]. unfold to_int in E. lia.
Qed.
Example C53_paid_from_vault_ex :
  (exists b' p' r, token_withdraw (set_totals ex_bank (of_int 1) 0 0 0) (mkTpos fone 0) (2 ^ 64 - 1) false 5 1500000 fone true = Some (b', p', r, 1000000)) /\
  token_withdraw (set_totals ex_bank (of_int 1) 0 0 0) (mkTpos fone 0) (2 ^ 64 - 1) false 5 999999 fone true = None.
Proof. split; [eexists _, _, _; vm_compute; reflexivity|vm_compute; reflexivity]. Qed.
Print Assumptions C53_paid_from_vault.
