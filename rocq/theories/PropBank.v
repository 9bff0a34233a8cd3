(** C23-C28, C31, C52-C54: token banks. *)
From Coq Require Import List ZArith Lia Bool.
From Verif Require Import Fixed Interest InterestFacts Bank BankFacts BankSystem BankSpec BankInv BankSolvency BankResults
  BankShare PropInterest.
Import ListNotations.
Open Scope Z_scope.

(** a newly registered token: loan origination fee 0.05%, net borrow limit 1000 quote
    per window of 100s, at most 90% utilization *)
Definition ex_bank : bank :=
  mkBank (1000000 * fone) (1000000 * fone) 0 0 0 0 (fone / 2000) 0 100 0 1000 fone 0 0 0 (fone * 9 / 10) 0 ex_par 0.
Definition ex_state : tstate := mkTstate [ex_bank] [] 0.
Lemma ex_new : new_token ex_state.
Proof. split; [reflexivity|]. split; [reflexivity|]. exists ex_bank. split; [reflexivity|]. repeat split; vm_compute; congruence. Qed.

(** two depositors, a borrower, interest, dusting, a second bank, fees paid out *)
Definition ex_history : list top :=
  [TOpen 1; TBank 0 1 (BDeposit (of_int 1000) false 10) false; TOpen 2;
   TBank 0 2 (BWithdraw (of_int 400) true false 20) false; TUpdateIndex 3000;
   TAddBank 0; TOpen 3; TBank 1 3 (BDeposit (of_int 70) false 3100) false;
   TBank 0 2 (BDeposit (of_int 100) false 3200) false; TUpdateIndex 5000;
   TBank 0 3 (BWithdraw (of_int 70) true false 5100) true; TWithdrawFees 0 1000].
Definition ex_run_result : option tstate := trun ex_state ex_history.

(** ** C23 *)
(** In every history of a token in which no socialized loss exceeds the deposits,
    the banks' totals of shares are the sums over all positions. *)
Theorem C23_totals (s0 s : tstate) (ops : list top) :
  new_token s0 -> losses_covered s0 ops -> trun s0 ops = Some s ->
  bank_deposits s = lent s /\ bank_borrows s = borrowed s /\ indexes_positive s.
Proof.
  intros Hn Hc H. pose proof (tinv_run ops s0 s (tinv_new s0 Hn) Hc H) as [I1 I2 I3].
  split; [exact I1|]. split; [exact I2|]. intros b Hb. exact (proj1 (I3 b Hb)).
Qed.
Example C23_totals_ex : exists s, trun ex_state ex_history = Some s /\ losses_covered ex_state ex_history /\
  0 < lent s /\ 0 < borrowed s /\ length (ts_banks s) = 2%nat /\ length (ts_pos s) = 2%nat.
Proof.
  eexists. split; [vm_compute; reflexivity|]. split; [vm_compute; tauto|]. repeat split; vm_compute; reflexivity.
Qed.
Print Assumptions C23_totals.

(** Without the condition on socialized losses it is false: interest with a loan fee
    can make the debt of the only borrower larger than all deposits; socializing
    it makes the deposit index negative, and the next deposit corrupts the totals.
    ([token_liq_bankruptcy.rs:246] has the comment "AUDIT: Could it happen ...?
    Probably not.") *)
Definition ex_fee_bank : bank :=
  mkBank (1000000 * fone) (1000000 * fone) 0 0 0 0 0 0 100 0 (-1) fone 0 0 0 fone 0
    (mkIpar 0 (fone / 2) 0 (fone * 8 / 10) 0 0 0 (100 * fone)) 0.
Definition ex_uncovered : list top :=
  [TOpen 1; TBank 0 1 (BDeposit (of_int 1000) false 10) false; TOpen 2;
   TBank 0 2 (BWithdraw (of_int 999) true false 20) false; TUpdateIndex 3600;
   TSocialize 0 2 (of_int 999 + of_int 999 * 100 * 3600 / 31536000 + 1) 3700 false;
   TBank 0 1 (BDeposit (of_int 1) false 3800) false].
Theorem C23_uncovered_loss_refuted : exists s0 ops s, new_token s0 /\ trun s0 ops = Some s /\
  bank_borrows s <> borrowed s.
Proof.
  exists (mkTstate [ex_fee_bank] [] 0), ex_uncovered. eexists. split.
  { split; [reflexivity|]. split; [reflexivity|]. exists ex_fee_bank. split; [reflexivity|]. repeat split; vm_compute; congruence. }
  split; [vm_compute; reflexivity|]. vm_compute. discriminate.
Qed.
Print Assumptions C23_uncovered_loss_refuted.

(** ** C24 *)
(** A deposit of [x] into a position without debt makes it worth at least [x] more
    and less than [x] plus one index unit more ([x * fone] is [x] in 2^-96 tokens). *)
Theorem C24_deposit_value (b b' : bank) (p p' : tpos) (x now : Z) (act : bool) :
  0 < b_di b -> 0 < b_bi b -> 0 <= t_ix p -> deposit b p x now = Some (b', p', act) ->
  act = true /\ b_di b' = b_di b /\ b_bi b' = b_bi b /\
  x * fone <= worth (b_di b) (b_bi b) (t_ix p') - worth (b_di b) (b_bi b) (t_ix p) < x * fone + b_di b /\
  (t_ix p = 0 -> x <= native b' p').
Proof.
  intros Hd Hb Hp H. destruct (deposit_nonneg _ _ _ _ _ _ _ _ (conj Hd Hb) Hp H) as (-> & Hx & A & L & E1 & E2 & _).
  split; [reflexivity|]. split; [exact E1|]. split; [exact E2|]. split.
  - unfold worth. destruct (Z.ltb_spec (t_ix p') 0), (Z.ltb_spec (t_ix p) 0); lia.
  - intros Hz. destruct p' as [ix' u']. cbn [t_ix] in *. rewrite native_of by lia. rewrite E1.
    unfold fmul. apply Z.div_le_lower_bound; [apply fone_pos|]. lia.
Qed.
Example C24_deposit_value_ex : exists b' p', deposit ex_bank (mkTpos 0 0) (of_int 1000) 10 = Some (b', p', true) /\ 0 < t_ix p'.
Proof. eexists _, _. split; vm_compute; reflexivity. Qed.
Print Assumptions C24_deposit_value.

(** Depositing and withdrawing the same amount: no fee, no borrow; the position ends
    with at most one share more than before, or, if it was worth less than one token
    before, is dusted. *)
Theorem C24_round_trip (b b1 b2 : bank) (p p1 p2 : tpos) (x now now' : Z) (a1 : bool) (r : wres) :
  0 < b_di b -> 0 < b_bi b -> 0 <= t_ix p ->
  deposit b p x now = Some (b1, p1, a1) -> withdraw_with_fee b1 p1 x now' = Some (b2, p2, r) ->
  w_fee r = 0 /\ w_loan r = 0 /\
  (w_active r = true -> t_ix p <= t_ix p2 <= t_ix p + 1) /\
  (w_active r = false -> t_ix p2 = 0 /\ worth (b_di b) (b_bi b) (t_ix p) < fone * fone).
Proof.
  intros Hd Hb Hp H1 H2. destruct (round_trip _ _ _ _ _ _ _ _ _ _ _ _ _ _ (conj Hd Hb) Hp H1 H2) as (A & B & C & D).
  split; [exact A|]. split; [exact B|]. split; [exact C|]. intros h. destruct (D h) as [D1 D2]. split; [exact D1|].
  unfold worth. destruct (Z.ltb_spec (t_ix p) 0); lia.
Qed.
Example C24_round_trip_ex : exists b1 p1 b2 p2 r, deposit ex_bank (mkTpos (3 * fone) 0) (of_int 1000) 10 = Some (b1, p1, true) /\
  withdraw_with_fee b1 p1 (of_int 1000) 20 = Some (b2, p2, r) /\ w_active r = true.
Proof. eexists _, _, _, _, _. split; [vm_compute; reflexivity|]. split; vm_compute; reflexivity. Qed.
Print Assumptions C24_round_trip.

(** Every call changes the position's worth plus dust plus fees by the tokens paid in,
    up to less than one unit of 2^-48 tokens down and one index unit up. *)
Theorem C24_every_call (b b' : bank) (p p' : tpos) (o : bop) (act : bool) (paid : Z) :
  0 < b_di b -> 0 < b_bi b -> 0 <= b_lof b -> bank_op b p o = Some (b', p', act, paid) ->
  let change := worth (b_di b) (b_bi b) (t_ix p') - worth (b_di b) (b_bi b) (t_ix p)
                + (b_dust b' - b_dust b) * fone + (b_fees b' - b_fees b) * fone in
  paid * fone - fone < change < paid * fone + Z.max (b_di b) (b_bi b).
Proof.
  intros Hd Hb Hl H. apply bank_op_spec in H; [|split; assumption|exact Hl]. destruct H as (_ & _ & A & B).
  rewrite !pv_worth in A, B. cbn zeta. lia.
Qed.
Example C24_every_call_ex : exists b' p', bank_op ex_bank (mkTpos fone 0) (BWithdraw (of_int 2000000) true false 5) =
  Some (b', p', true, - of_int 2000000) /\ t_ix p' < 0.
Proof. eexists _, _. split; vm_compute; reflexivity. Qed.
Print Assumptions C24_every_call.

(** ** C25 *)
(** Withdrawing [x]: the part to borrow is what exceeds the position's positive
    balance.  Fee: rate times this part; the debt grows by part plus fee. *)
Theorem C25_fee_on_borrowed_part (b b' : bank) (p p' : tpos) (x now : Z) (r : wres) :
  0 < b_di b -> 0 < b_bi b -> 0 <= b_lof b -> withdraw_with_fee b p x now = Some (b', p', r) ->
  let part := x - Z.max (native b p) 0 in
  b_fees b' = b_fees b + w_fee r /\
  (part <= 0 -> w_fee r = 0 /\ w_loan r = 0 /\ Z.max (- t_ix p') 0 = Z.max (- t_ix p) 0) /\
  (0 < part -> w_fee r = b_lof b * part / fone /\ w_loan r = part + w_fee r /\
     let shares := Z.max (- t_ix p') 0 - Z.max (- t_ix p) 0 in
     shares * b_bi b <= (part + w_fee r) * fone < shares * b_bi b + b_bi b).
Proof.
  intros Hd Hb Hl H. cbn zeta. pose proof H as H0. unfold withdraw_with_fee in H.
  apply withdraw_spec in H; [|split; assumption|exact Hl].
  destruct H as (X0 & M & L & F0 & Ef & E1 & E2 & _ & _ & _ & _ & S1 & S2 & _). fold (to_borrow b p x).
  split; [exact Ef|]. cbn [andb] in E1. split.
  - intros Hz. destruct (Z.ltb_spec 0 (to_borrow b p x)); [lia|]. split; [exact E1|]. split; [exact E2|].
    unfold to_borrow in Hz. destruct (Z_lt_le_dec (native b p) 0) as [h|h].
    + assert (x = 0) by lia. subst x. apply (native_neg b p (conj Hd Hb)) in h.
      rewrite (withdraw_zero _ _ _ _ _ _ _ _ (conj Hd Hb) h H0). reflexivity.
    + assert (0 <= t_ix p') by (apply S1; lia).
      assert (0 <= t_ix p); [|lia].
      destruct (Z_lt_le_dec (t_ix p) 0) as [h'|h']; [apply (native_neg b p (conj Hd Hb)) in h'; lia|exact h'].
  - intros Hpos. destruct (withdraw_borrow _ _ _ _ _ _ _ _ _ (conj Hd Hb) Hl Hpos H0) as (_ & W1 & W2 & W3 & _).
    split; [exact W2|]. split; [exact W1|exact W3].
Qed.
Example C25_ex : exists b' p' r, withdraw_with_fee ex_bank (mkTpos fone 0) (of_int 3000000) 5 = Some (b', p', r) /\
  w_loan r = of_int 2000000 + w_fee r /\ w_fee r = 2000000 * (fone / 2000).
Proof. eexists _, _, _. split; [vm_compute; reflexivity|]. split; vm_compute; reflexivity. Qed.
Print Assumptions C25_fee_on_borrowed_part.

(** ** C26 *)
(** A withdrawal that reports the position as inactive: it was not negative, is now
    zero, and what was left, non-negative and below one native token, went to dust. *)
Theorem C26_dusted_by_withdrawal (b b' : bank) (p p' : tpos) (x now : Z) (fee dusting : bool) (r : wres) :
  0 < b_di b -> 0 < b_bi b -> 0 <= b_lof b -> withdraw_internal b p x fee dusting now = Some (b', p', r) ->
  w_active r = false ->
  dusting = true /\ 0 <= t_ix p /\ t_ix p' = 0 /\ w_fee r = 0 /\
  b_dust b' = b_dust b + (native b p - x) /\ 0 <= native b p - x < fone.
Proof.
  intros Hd Hb Hl H Ha. apply withdraw_spec in H; [|split; assumption|exact Hl].
  destruct H as (X0 & M & L & F0 & Ef & E1 & E2 & _ & A & _). destruct (A Ha) as (A1 & A2 & A3 & A4 & A5 & A6).
  repeat (split; [assumption|]). split; [|split; assumption].
  rewrite E1. destruct (Z.ltb_spec 0 (to_borrow b p x)); [lia|]. rewrite andb_false_r. reflexivity.
Qed.
Example C26_dusted_by_withdrawal_ex : exists b' p' r,
  withdraw_internal ex_bank (mkTpos (fone / 1000000 + 200000000) 0) (of_int 1) true true 5 = Some (b', p', r) /\
  w_active r = false /\ 0 < b_dust b'.
Proof. eexists _, _, _. split; [vm_compute; reflexivity|]. split; vm_compute; reflexivity. Qed.
Print Assumptions C26_dusted_by_withdrawal.

(** A deposit that reports the position as inactive: it was negative, is now zero, and
    the remainder went to dust: less than one native token, and not negative except
    for rounding (one unit of 2^-48 tokens plus one borrow index unit). *)
Theorem C26_dusted_by_deposit (b b' : bank) (p p' : tpos) (x now : Z) (dusting : bool) :
  0 < b_di b -> 0 < b_bi b -> deposit_internal b p x dusting now = Some (b', p', false) ->
  dusting = true /\ t_ix p < 0 /\ t_ix p' = 0 /\
  b_dust b' = b_dust b + (native b p + x) /\ native b p + x < fone /\ - (b_bi b + fone) < (native b p + x) * fone.
Proof.
  intros Hd Hb H. apply deposit_spec in H; [|split; assumption]. destruct H as (_ & _ & _ & _ & _ & A & _).
  destruct (A eq_refl) as (A1 & A2 & A3 & A4 & A5 & A6). repeat (split; [assumption|]). lia.
Qed.
Example C26_dusted_by_deposit_ex : exists b' p',
  deposit_internal ex_bank (mkTpos (- fone / 1000000) 0) (of_int 1) true 5 = Some (b', p', false) /\ t_ix p' = 0.
Proof. eexists _, _. split; vm_compute; reflexivity. Qed.
Print Assumptions C26_dusted_by_deposit.

(** The plain statement "dust never decreases" is false for deposits *)
Theorem C26_dust_never_negative_refuted : exists b p x now b' p',
  0 < b_di b /\ 0 < b_bi b /\ deposit b p x now = Some (b', p', false) /\ b_dust b' < b_dust b.
Proof.
  exists (mkBank fone (fone * 3 / 2) 0 1 0 0 0 0 100 0 1000 fone 0 0 0 fone 0 ex_par 0), (mkTpos (-1) 0), 1, 5.
  eexists _, _. split; [reflexivity|]. split; [vm_compute; reflexivity|]. split; vm_compute; reflexivity.
Qed.
Print Assumptions C26_dust_never_negative_refuted.

(** Positions marked as in use are never reported inactive, by any of the calls; and
    the position is zero whenever a call reports it inactive. *)
Theorem C26_in_use_kept (b b' : bank) (p p' : tpos) (o : bop) (act : bool) (paid : Z) :
  0 < b_di b -> 0 < b_bi b -> 0 <= b_lof b -> bank_op b p o = Some (b', p', act, paid) ->
  (0 < t_use p -> act = true) /\ (act = false -> t_ix p' = 0) /\ t_use p' = t_use p.
Proof.
  intros Hd Hb Hl H. pose proof H as H0. apply bank_op_spec in H; [|split; assumption|exact Hl].
  destruct H as (M & A & _). split; [|split; [exact A|apply M]].
  intros Hu. assert (Eu : in_use p = true) by (unfold in_use; lia).
  assert (Eu' : in_use p' = true) by (unfold in_use; destruct M as [_ _ -> _ _ _ _ _ _ _ _ _ _ _ _ _]; lia).
  destruct act; [reflexivity|exfalso].
  destruct o as [x d now|x wf d now|y now|now|x fee d now]; unfold bank_op in H0.
  - destruct d.
    + unfold deposit_with_dusting in H0. destruct (deposit_internal _ _ _ _ _) as [[[b1 p1] a1]|]; [|discriminate].
      injection H0 as _ -> E _. rewrite Eu', orb_true_r in E. discriminate.
    + unfold deposit in H0. rewrite Eu in H0. cbn [negb] in H0. destruct (deposit_internal _ _ _ _ _) as [[[b1 p1] a1]|] eqn:E; [|discriminate].
      injection H0 as -> -> -> _. apply C26_dusted_by_deposit in E as (E & _); [discriminate|assumption..].
  - destruct wf; [|destruct d].
    + unfold withdraw_with_fee in H0. rewrite Eu in H0. cbn [negb] in H0. destruct (withdraw_internal _ _ _ _ _ _) as [[[b1 p1] r]|] eqn:E; [|discriminate].
      injection H0 as _ _ E0 _. apply C26_dusted_by_withdrawal in E as (E & _); [discriminate|assumption..].
    + unfold withdraw_without_fee_with_dusting in H0. destruct (withdraw_internal _ _ _ _ _ _) as [[[b1 p1] r]|] eqn:E; [|discriminate].
      injection H0 as _ -> E0 _. rewrite Eu', orb_true_r in E0. discriminate.
    + unfold withdraw_without_fee in H0. rewrite Eu in H0. cbn [negb] in H0. destruct (withdraw_internal _ _ _ _ _ _) as [[[b1 p1] r]|] eqn:E; [|discriminate].
      injection H0 as _ _ E0 _. apply C26_dusted_by_withdrawal in E as (E & _); [discriminate|assumption..].
  - unfold withdraw_loan_origination_fee in H0. rewrite Eu in H0. cbn [negb] in H0. destruct (withdraw_internal _ _ _ _ _ _) as [[[b1 p1] r]|] eqn:E; [|discriminate].
    injection H0 as _ _ E0 _. cbn [w_active] in E0. apply C26_dusted_by_withdrawal in E as (E & _); [discriminate|assumption..].
  - unfold dust_if_possible in H0. rewrite Eu in H0. discriminate.
  - destruct (0 <=? fee); cbn [guard] in H0; [|discriminate]. set (b0 := set_totals b _ _ _ _) in H0.
    destruct (0 <=? x - fee); destruct d.
    + unfold deposit_with_dusting in H0. destruct (deposit_internal _ _ _ _ _) as [[[b1 p1] a1]|]; [|discriminate].
      injection H0 as _ -> E _. rewrite Eu', orb_true_r in E. discriminate.
    + unfold deposit in H0. rewrite Eu in H0. cbn [negb] in H0. destruct (deposit_internal _ _ _ _ _) as [[[b1 p1] a1]|] eqn:E; [|discriminate].
      injection H0 as -> -> -> _. apply C26_dusted_by_deposit in E as (E & _); [discriminate|assumption..].
    + unfold withdraw_without_fee_with_dusting in H0. destruct (withdraw_internal _ _ _ _ _ _) as [[[b1 p1] r]|] eqn:E; [|discriminate].
      injection H0 as _ -> E0 _. rewrite Eu', orb_true_r in E0. discriminate.
    + unfold withdraw_without_fee in H0. rewrite Eu in H0. cbn [negb] in H0. destruct (withdraw_internal _ _ _ _ _ _) as [[[b1 p1] r]|] eqn:E; [|discriminate].
      injection H0 as _ _ E0 _. apply C26_dusted_by_withdrawal in E as (E & _); [discriminate|assumption..].
Qed.
Example C26_in_use_kept_ex : exists b' p', bank_op ex_bank (mkTpos fone 1) (BWithdraw (of_int 1000000) true false 5) =
  Some (b', p', true, - of_int 1000000) /\ t_ix p' = 0.
Proof. eexists _, _. split; vm_compute; reflexivity. Qed.
Print Assumptions C26_in_use_kept.

(** ** C27 *)
(** For a sequence of borrow amounts (negative: repayments) reported at nondecreasing
    times, the window always covers the last call, and the counter is the sum of
    the amounts (rounded up to whole tokens) reported since the window began. *)
Theorem C27_window_sum (b b' : bank) (evs : list (Z * Z)) :
  0 < b_win_size b -> b_win_start b mod b_win_size b = 0 -> ordered (b_win_start b) evs -> win_run b evs = Some b' ->
  b_win_start b' mod b_win_size b = 0 /\ b_win_start b <= b_win_start b' /\
  (evs <> [] -> b_win_start b' <= last_time (b_win_start b) evs < b_win_start b' + b_win_size b) /\
  b_win_net b' = (if b_win_start b' =? b_win_start b then b_win_net b else 0) + counted (b_win_start b') evs.
Proof.
  intros H1 H2 H3 H4. destruct (win_run_spec evs b b' H1 H2 H3 H4) as (A & B & C & D & E & F).
  split; [exact B|]. split; [exact C|]. split; [exact F|].
  destruct (Z.eqb_spec (b_win_start b') (b_win_start b)) as [h|h]; [auto|]. rewrite E; lia.
Qed.
Example C27_window_sum_ex : exists b', win_run ex_bank [(5, of_int 7); (99, of_int 8 + 1); (100, of_int 3); (120, - of_int 1)] = Some b' /\
  b_win_net b' = 2 /\ b_win_start b' = 100.
Proof. eexists. split; [vm_compute; reflexivity|]. split; reflexivity. Qed.
Print Assumptions C27_window_sum.

(** What is reported: a withdrawal that borrows reports the new debt including the fee,
    a deposit into a negative position reports the repaid part, others nothing. *)
Theorem C27_withdrawals_counted (b b' : bank) (p p' : tpos) (x now : Z) (fee dusting : bool) (r : wres) :
  0 < b_di b -> 0 < b_bi b -> 0 <= b_lof b -> Z.max (native b p) 0 < x ->
  withdraw_internal b p x fee dusting now = Some (b', p', r) ->
  let amount := - (- w_loan r / fone) in
  let counted_amount := Z.max (- 2 ^ 63) (Z.min (2 ^ 63 - 1) amount) in
  (now < b_win_start b + b_win_size b -> b_win_net b' = b_win_net b + counted_amount) /\
  (b_win_start b + b_win_size b <= now -> b_win_net b' = counted_amount).
Proof.
  intros Hd Hb Hl Hx H. destruct (withdraw_borrow b p x fee dusting now b' p' r (conj Hd Hb) Hl ltac:(unfold to_borrow; lia) H)
    as (_ & W & _ & _ & b1 & E & E1 & E2 & E3).
  rewrite W. pose proof (unb_after _ _ _ _ _ E E1 E2 E3) as [A B]. cbn zeta in *. split; intros h; [apply A|apply B]; exact h.
Qed.
Theorem C27_deposits_counted (b b' : bank) (p p' : tpos) (x now : Z) (dusting act : bool) :
  0 < b_di b -> 0 < b_bi b -> deposit_internal b p x dusting now = Some (b', p', act) ->
  let repaid := Z.max (native b p) (- x) in
  let counted_amount := Z.max (- 2 ^ 63) (Z.min (2 ^ 63 - 1) (- (- repaid / fone))) in
  (0 <= t_ix p -> b_win_net b' = b_win_net b /\ b_win_start b' = b_win_start b) /\
  (t_ix p < 0 -> now < b_win_start b + b_win_size b -> b_win_net b' = b_win_net b + counted_amount) /\
  (t_ix p < 0 -> b_win_start b + b_win_size b <= now -> b_win_net b' = counted_amount).
Proof.
  intros Hd Hb H. destruct (deposit_window b p x dusting now b' p' act (conj Hd Hb) H) as [A B]. cbn zeta.
  split; [exact B|]. split; intros h; specialize (A h); destruct A as [A1 A2]; intros h'; [apply A1|apply A2]; exact h'.
Qed.
Example C27_counted_ex : exists b' p' r, withdraw_internal ex_bank (mkTpos fone 0) (of_int 3000000) true true 5 = Some (b', p', r) /\
  b_win_net b' = 2001000.
Proof. eexists _, _, _. split; vm_compute; reflexivity. Qed.
Print Assumptions C27_withdrawals_counted.
Print Assumptions C27_deposits_counted.

(** A token withdrawal that borrows succeeds only if afterwards the net borrows of the
    window, at the higher of oracle and stable price, are within the limit
    (negative limit: none; negative net borrows always pass). *)
Theorem C27_limit_enforced (b b' : bank) (p p' : tpos) (amount now vault oracle paid : Z) (ab ok : bool) (r : wres) :
  0 < b_di b -> 0 < b_bi b -> 0 <= b_lof b ->
  token_withdraw b p amount ab now vault oracle ok = Some (b', p', r, paid) -> t_ix p' < Z.min (t_ix p) 0 ->
  ok = true /\ (b_win_net b' < 0 \/ b_win_limit b < 0 \/ Z.max oracle (b_stable b) * b_win_net b' <= b_win_limit b * fone).
Proof.
  intros Hd Hb Hl H Hlt. apply token_withdraw_inv in H as (_ & [(_ & _ & _ & _ & -> & _)|(_ & W & _ & A & _)]); [lia|].
  unfold withdraw_with_fee in W. apply withdraw_spec in W; [|split; assumption|exact Hl].
  destruct W as (_ & M & _ & _ & _ & _ & _ & _ & _ & _ & _ & S1 & _).
  destruct (Z_lt_le_dec (native b p) (of_int paid)) as [h|h]; [|specialize (S1 h); lia].
  destruct (A h) as (_ & _ & A3 & _ & A5). split; [exact A3|]. apply check_net_borrows_iff in A5.
  destruct M as [_ _ _ _ _ _ _ M8 M9 _ _ _ _ _ _ _]. rewrite M8, M9 in A5. exact A5.
Qed.
(** a lender with enough deposits borrows 900 tokens; 1100 are rejected *)
Definition ex_lent_bank : bank := set_totals ex_bank (of_int 1) (of_int 0) 0 0.
Example C27_limit_enforced_ex :
  (exists b' p' r, token_withdraw ex_lent_bank (mkTpos 0 0) 900 true 5 1000000 fone true = Some (b', p', r, 900) /\ t_ix p' < 0) /\
  token_withdraw ex_lent_bank (mkTpos 0 0) 1100 true 5 1000000 fone true = None.
Proof. split; [eexists _, _, _; split; vm_compute; reflexivity|vm_compute; reflexivity]. Qed.
Print Assumptions C27_limit_enforced.

(** ** C28 *)
(** Depositing at most the reported remaining amount keeps the total of deposits and
    open-orders tokens within the deposit limit. *)
Theorem C28_remaining_deposits (b b' : bank) (p p' : tpos) (x now : Z) (dusting act : bool) :
  0 < b_di b -> 0 < b_bi b -> b_dep_limit b <> 0 -> x <= remaining_deposits_until_limit b ->
  deposit_internal b p x dusting now = Some (b', p', act) ->
  check_deposit_and_oo_limit b' = true /\
  b_di b' * b_dep b' / fone + b_serum b' * fone <= b_dep_limit b * fone.
Proof.
  intros Hd Hb Hl Hx H. pose proof (deposit_limit_kept b p x dusting now b' p' act (conj Hd Hb) Hl Hx H) as C.
  split; [exact C|]. apply deposit_spec in H; [|split; assumption]. destruct H as (_ & M & _).
  destruct M as [_ _ _ _ _ _ _ _ _ M10 _ _ _ _ _ _]. unfold check_deposit_and_oo_limit, native_deposits, fmul, of_int in C.
  rewrite M10 in C. lia.
Qed.
Definition ex_limited_bank : bank :=
  mkBank (1000000 * fone) (1000000 * fone) (of_int 1 / 1000) 0 0 0 0 0 100 0 1000 fone 2000 17 0 fone 0 ex_par 0.
Example C28_ex : exists b' p', of_int 982 <= remaining_deposits_until_limit ex_limited_bank /\
  deposit_internal ex_limited_bank (mkTpos 0 0) (of_int 982) true 5 = Some (b', p', true) /\
  of_int 1998 <= b_di b' * b_dep b' / fone + of_int 17.
Proof. eexists _, _. split; [vm_compute; discriminate|]. split; [vm_compute; reflexivity|]. vm_compute. discriminate. Qed.
Print Assumptions C28_remaining_deposits.

(** ** C31 *)
(** A successful token withdrawal leaves native borrows at or below the native deposits,
    and if it borrows, below the configured maximal utilization of the deposits. *)
Theorem C31_utilization (b b' : bank) (p p' : tpos) (amount now vault oracle paid : Z) (ab ok : bool) (r : wres) :
  0 < b_di b -> 0 < b_bi b -> 0 <= b_lof b ->
  token_withdraw b p amount ab now vault oracle ok = Some (b', p', r, paid) -> 0 < paid ->
  let deposits := b_di b' * b_dep b' / fone in
  let borrows := b_bi b' * b_bor b' / fone in
  (t_ix p' < Z.min (t_ix p) 0 -> borrows <= b_max_util b * deposits / fone) /\
  (0 <= t_ix p' -> of_int paid <= native b p -> borrows <= deposits) /\
  paid <= vault.
Proof.
  intros Hd Hb Hl H Hp. apply token_withdraw_inv in H as (_ & [(_ & _ & _ & _ & _ & E & _)|(_ & W & V & A & B)]); [lia|].
  unfold withdraw_with_fee in W. apply withdraw_spec in W; [|split; assumption|exact Hl].
  destruct W as (_ & M & _ & _ & _ & _ & _ & _ & _ & _ & _ & S1 & _). cbn zeta.
  split; [|split; [|exact V]].
  - intros Hlt. destruct (Z_lt_le_dec (native b p) (of_int paid)) as [h|h]; [|specialize (S1 h); lia].
    destruct (A h) as (_ & _ & _ & A4 & _). apply enforce_iff in A4.
    destruct M as [_ _ _ _ _ _ _ _ _ _ _ _ M13 _ _ _]. rewrite M13 in A4. exact A4.
  - intros _ h. specialize (B h). apply enforce_iff in B. rewrite fmul_comm, fmul_one_r in B. exact B.
Qed.
Example C31_ex :
  token_withdraw (set_totals ex_bank (of_int 1 / 1000) 0 0 0) (mkTpos 0 0) 900 true 5 1000000 (fone / 100) true = None /\
  exists b' p' r, token_withdraw (set_totals ex_bank (of_int 1 / 1000) 0 0 0) (mkTpos 0 0) 899 true 5 1000000 (fone / 100) true
    = Some (b', p', r, 899) /\ t_ix p' < 0.
Proof. split; [vm_compute; reflexivity|]. eexists _, _, _. split; vm_compute; reflexivity. Qed.
Print Assumptions C31_utilization.

(** ** C52 *)
(** Withdrawals without the borrow permission, or in a bank that allows no new
    borrows, never create or increase debt. *)
Theorem C52_no_new_borrow (b b' : bank) (p p' : tpos) (amount now vault oracle paid : Z) (ab ok : bool) (r : wres) :
  0 < b_di b -> 0 < b_bi b -> 0 <= b_lof b ->
  token_withdraw b p amount ab now vault oracle ok = Some (b', p', r, paid) ->
  ab = false \/ b_reduce b = 1 \/ b_reduce b = 2 ->
  w_fee r = 0 /\ w_loan r = 0 /\ Z.min (t_ix p) 0 <= t_ix p' /\ (0 < paid -> 0 <= t_ix p' /\ of_int paid <= native b p).
Proof.
  intros Hd Hb Hl H Hr. apply token_withdraw_inv in H as (Ha & [(_ & _ & _ & _ & -> & -> & ->)|(_ & W & _ & A & _)]).
  - split; [reflexivity|]. split; [reflexivity|]. split; [lia|]. lia.
  - assert (h : of_int paid <= native b p).
    { destruct (Z_lt_le_dec (native b p) (of_int paid)) as [h|h]; [|exact h]. exfalso.
      destruct (A h) as (A1 & A2 & _). unfold borrows_reduce_only in A2. apply orb_false_iff in A2 as [A2 A3].
      destruct Hr as [Hr|[Hr|Hr]]; [congruence|lia|lia]. }
    pose proof W as W0. unfold withdraw_with_fee in W. apply withdraw_spec in W; [|split; assumption|exact Hl].
    destruct W as (X0 & M & _ & _ & _ & E1 & E2 & _ & _ & _ & _ & S1 & _). specialize (S1 h).
    unfold to_borrow in *. destruct (Z.ltb_spec 0 (of_int paid - Z.max (native b p) 0)); [lia|].
    rewrite andb_false_r in E1. split; [exact E1|]. split; [exact E2|]. split; [lia|]. auto.
Qed.
Example C52_no_new_borrow_ex : exists b' p' r,
  token_withdraw (set_totals ex_bank fone 0 0 0) (mkTpos fone 0) U64_MAX false 5 2000000 fone true = Some (b', p', r, 1000000) /\ t_ix p' = 0.
Proof. eexists _, _, _. split; vm_compute; reflexivity. Qed.
Print Assumptions C52_no_new_borrow.

(** Reduce-only deposits: an existing deposit is not increased, and a debt is at most
    paid back: afterwards the position is worth less than one native token plus
    rounding. *)
Theorem C52_reduce_only_deposit (b b' : bank) (p p' : tpos) (amount now paid : Z) (ro act : bool) :
  0 < b_di b -> 0 < b_bi b ->
  token_deposit b p amount ro now = Some (b', p', act, paid) -> ro = true \/ b_reduce b = 1 ->
  paid <= amount /\ (0 <= t_ix p -> t_ix p' = t_ix p /\ paid = 0) /\
  (t_ix p < 0 -> worth (b_di b) (b_bi b) (t_ix p') < fone * fone + Z.max (b_di b) (b_bi b) + fone).
Proof.
  intros Hd Hb H Hr. apply token_deposit_inv in H as (Ha & H). cbn zeta in H.
  assert (E : ro || deposits_reduce_only b = true).
  { unfold deposits_reduce_only. destruct Hr as [-> | ->]; [reflexivity|apply orb_true_r]. }
  rewrite E in H. destruct H as (D & -> & _). set (x := Z.min (fceil (Z.abs (Z.min (native b p) 0))) (of_int amount)) in *.
  assert (X : x <= of_int amount) by (unfold x; lia).
  split; [|split].
  - unfold to_int. apply Z.div_le_upper_bound; [apply fone_pos|]. unfold of_int in X. lia.
  - intros Hp. assert (N0 : ~ native b p < 0) by (rewrite (native_neg b p (conj Hd Hb)); lia).
    assert (x = 0). { unfold x. rewrite (Z.min_r (native b p) 0) by lia. change (fceil (Z.abs 0)) with 0. unfold of_int. pose proof fone_pos. lia. }
    rewrite H in *. destruct (deposit_nonneg _ _ _ _ _ _ _ _ (conj Hd Hb) Hp D) as (_ & _ & _ & _ & _ & _ & _ & _ & Z0 & _).
    split; [auto|reflexivity].
  - intros Hp. pose proof Hp as Hn. apply (native_neg b p (conj Hd Hb)) in Hn.
    pose proof (native_bounds b p) as [N1 N2]. rewrite pv_worth in N1, N2.
    unfold deposit in D. apply deposit_spec in D; [|split; assumption]. destruct D as (_ & _ & _ & _ & D1 & D2 & _ & U & _).
    rewrite !pv_worth in U.
    assert (X2 : x < - native b p + fone).
    { unfold x. assert (fceil (Z.abs (Z.min (native b p) 0)) < - native b p + fone); [|lia].
      rewrite (Z.min_l (native b p) 0), Z.abs_neq by lia. unfold fceil.
      pose proof (Z.div_mod (- - native b p) fone ltac:(pose proof fone_pos; lia)).
      pose proof (Z.mod_pos_bound (- - native b p) fone fone_pos). lia. }
    destruct act.
    + rewrite D1 in U by reflexivity. pose proof fone_pos. assert (x * fone <= (- native b p + fone - 1) * fone) by nia. lia.
    + destruct (D2 eq_refl) as (_ & _ & -> & _). change (worth (b_di b) (b_bi b) 0) with 0. pose proof fone_pos. nia.
Qed.
Example C52_reduce_only_deposit_ex : exists b' p', token_deposit ex_bank (mkTpos (- fone) 1) 5000000 true 5 = Some (b', p', true, 1000000) /\
  t_ix p' = 0.
Proof. eexists _, _. split; vm_compute; reflexivity. Qed.
Print Assumptions C52_reduce_only_deposit.

(** ** C53 *)
(** For a token with a single bank, after any history: what depositors can claim, plus
    dust and fees not yet withdrawn, minus what borrowers owe, exceeds the tokens
    held by at most the sum of the roundings of the steps. *)
Theorem C53_solvent (s0 s : tstate) (ops : list top) :
  new_token s0 -> losses_covered s0 ops -> (forall o k, In o ops -> o <> TAddBank k) -> trun s0 ops = Some s ->
  exists b, ts_banks s = [b] /\ shortfall b s <= roundings s0 ops.
Proof.
  intros Hn Hc Ha H. assert (Hn' := Hn). destruct Hn' as (Hp & Hca & b & Hb & F).
  assert (A : forall o, In o ops -> adds_bank o = false).
  { intros o Ho. destruct o; try reflexivity. exfalso. exact (Ha _ k Ho eq_refl). }
  destruct (shortfall_run ops s0 b s (tinv_new s0 Hn) Hb A Hc H) as (b' & Hb' & L).
  exists b'. split; [exact Hb'|].
  assert (E : shortfall b s0 = 0); [|lia].
  unfold shortfall, claims. rewrite Hp, Hca. destruct F as (_ & _ & _ & _ & -> & -> & -> & _). reflexivity.
Qed.
Definition ex_single : list top :=
  [TOpen 1; TBank 0 1 (BDeposit (of_int 1000) false 10) false; TOpen 2;
   TBank 0 2 (BWithdraw (of_int 400) true false 20) false; TUpdateIndex 3000;
   TBank 0 2 (BDeposit (of_int 100) false 3200) false; TWithdrawFees 0 1000; TUpdateIndex 5000;
   TSocialize 0 2 (of_int 301) 6000 false;
   TBank 0 1 (BWithdraw (of_int 100) true false 7000) false].
Example C53_solvent_ex : exists s b, trun ex_state ex_single = Some s /\ ts_banks s = [b] /\
  losses_covered ex_state ex_single /\ 0 < lent s /\ roundings ex_state ex_single < fone * fone.
Proof.
  eexists _, _. split; [vm_compute; reflexivity|]. split; [reflexivity|].
  split; [vm_compute; repeat split; intros b [<-|[]]; reflexivity|].
  repeat split; vm_compute; reflexivity.
Qed.
Print Assumptions C53_solvent.

(** ** C54 *)
(** As long as no loss is socialized, all banks of a token have the same indexes, so it
    does not matter through which bank tokens are deposited or withdrawn. *)
Theorem C54_same_indexes (s0 s : tstate) (ops : list top) :
  new_token s0 -> (forall o, In o ops -> forall k a l n c, o <> TSocialize k a l n c) -> trun s0 ops = Some s ->
  forall b b', In b (ts_banks s) -> In b' (ts_banks s) -> b_di b = b_di b' /\ b_bi b = b_bi b'.
Proof.
  intros Hn Ho H. assert (Hn' := Hn). destruct Hn' as (_ & _ & b & Hb & _).
  apply (same_index_run ops s0 s (tinv_new s0 Hn)); [| |exact H].
  - intros x y Hx Hy. rewrite Hb in Hx, Hy. destruct Hx as [<-|[]], Hy as [<-|[]]. auto.
  - intros o Hin. destruct o; try reflexivity. exfalso. exact (Ho _ Hin _ _ _ _ _ eq_refl).
Qed.
Example C54_same_indexes_ex : exists s, trun ex_state ex_history = Some s /\ length (ts_banks s) = 2%nat /\
  Forall (fun b => 1000000 * fone < b_di b) (ts_banks s).
Proof. eexists. split; [vm_compute; reflexivity|]. split; [reflexivity|]. repeat constructor. Qed.
Print Assumptions C54_same_indexes.

(** Socializing a loss over two banks updates the deposit index of the first bank only
    (the loop of token_liq_bankruptcy.rs:250-265 leaves as soon as the loss is
    credited).  Until the next index update a depositor can put 1000 tokens in
    through the first bank and take 1100 out through the second. *)
Definition ex_two_banks : list top :=
  [TAddBank 0; TOpen 1; TBank 0 1 (BDeposit (of_int 1000) false 10) false; TOpen 2;
   TBank 0 2 (BWithdraw (of_int 100) false false 20) false; TOpen 4;
   TBank 0 4 (BWithdraw (of_int 50) false false 20) false; TSocialize 0 2 (of_int 100) 30 true; TOpen 3].
Definition ex_profit : list top :=
  [TBank 0 3 (BDeposit (of_int 1000) false 40) false; TBank 1 3 (BWithdraw (of_int 1100) true false 50) false].
Theorem C54_after_socialized_loss_refuted : exists s0 s1 s2 p,
  new_token s0 /\ losses_covered s0 ex_two_banks /\ trun s0 ex_two_banks = Some s1 /\ trun s1 ex_profit = Some s2 /\
  pos_get (ts_pos s1) 3 = Some (mkTpos 0 0) /\ pos_get (ts_pos s2) 3 = Some p /\ 0 <= t_ix p /\
  ts_cash s2 = ts_cash s1 - of_int 100 /\
  exists b0 b1, ts_banks s1 = [b0; b1] /\ b_di b0 < b_di b1.
Proof.
  exists ex_state. eexists _, _, _. split; [exact ex_new|].
  split; [vm_compute; repeat split; intros b [<-|[<-|[]]]; reflexivity|].
  split; [vm_compute; reflexivity|]. split; [vm_compute; reflexivity|]. split; [vm_compute; reflexivity|].
  split; [vm_compute; reflexivity|]. split; [vm_compute; discriminate|]. split; [vm_compute; reflexivity|].
  eexists _, _. split; [reflexivity|vm_compute; reflexivity].
Qed.
Print Assumptions C54_after_socialized_loss_refuted.
