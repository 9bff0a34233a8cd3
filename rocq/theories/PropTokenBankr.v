(** C71: bankruptcy of a token borrow: the insurance fund pays first, the depositors of the token
    only what it cannot.  Public statements. *)
From Coq Require Import List ZArith Lia Bool.
From Verif Require Import OrderTree Keys PerpTypes Interest Bank BankFacts BankSystem BankInv Health HealthSpec HealthFacts HealthMore PropInterest PropBank
  PropTokenLiq LiqState TokenLiq TokenLiqSpec TokenLiqFacts TokenBankr TokenBankrSpec TokenBankrFacts Fixed.
Import ListNotations.
Open Scope Z_scope.

Lemma lb_fine e s lb : bstate_ok e s -> nth_error (bs_banks s) (bs_k s) = Some lb -> bank_fine lb.
Proof. intros (_ & _ & _ & G & _) H. apply G. exact (nth_error_In _ _ H). Qed.
Lemma lb_debt s lb : nth_error (bs_banks s) (bs_k s) = Some lb -> debt s = - native lb (bs_ee s).
Proof. intros H. unfold debt. rewrite H. reflexivity. Qed.

(** When it may happen: the liqor is not being liquidated, the account has nothing left that the earlier phases could
    liquidate, the account owes the token; a liqor that takes over debt is healthy afterwards. *)
Theorem C71_conditions e s mx liqor_flag liqor_ok s' pay liab soc :
  bstate_ok e s -> token_liq_bankruptcy e s mx liqor_flag liqor_ok = Some (s', (pay, liab, soc)) ->
  liqor_flag = false /\ 0 < debt s /\
  (exists B, spot_zip (bs_cache s) = Some (combine (hc_tokens (bs_cache s)) B) /\ in_phase1 (bs_cache s) = false /\ in_phase2 (bs_cache s) (combine (hc_tokens (bs_cache s)) B) = false) /\
  (0 < pay -> be_ins_price e <> None ->
   exists lb1, liqor_ok lb1 (bs_ins s') (bs_or_liab s') (bs_or_ins s') = true /\ (soc = 0 -> nth_error (bs_banks s') (bs_k s') = Some lb1)).
Proof.
  intros O H. pose proof O as O'. apply bankr_inv in H as (B & lb & lb1 & ib1 & ee1 & oi1 & ol1 & ex & b0 & h & LF & EB & AP & Elb & HN & EI & EN & _ & ES & E0 & EA & Eh & Ef & Ek & E1 & E2 & E3 & E4); [|exact O].
  split; [exact LF|]. split; [rewrite (lb_debt _ _ Elb); lia|]. split.
  - exists B. split; [unfold spot_zip; rewrite EB; reflexivity|]. unfold after_phase2, after_phase1 in AP. unfold in_phase1, in_phase2, has_phase1, has_phase2.
    destruct (existsb (fun s => negb (si_zero s)) _), (existsb pi_orders _), (has_spot_liquidations _), (has_perp_base _), (has_perp_open_fills _), (has_perp_positive _); cbn in *; auto; discriminate.
  - intros HP HI. rewrite (proj2 (Z.ltb_lt _ _) HP) in EN. apply insure_spec in EN; [|exact (lb_fine _ _ _ O Elb)|apply O'].
    destruct EN as (_ & _ & _ & _ & EN). destruct (be_ins_price e) as [ip|]; [|congruence]. exists lb1. subst ib1 oi1 ol1. split; [apply EN|].
    intros ->. destruct (ex && _); [destruct ES as [ES [act X]]; apply socialize_inv in X as [X _]; lia|]. destruct ES as (_ & ES & _). rewrite ES, Ek, set_nth_nth, Nat.eqb_refl, Elb. reflexivity.
Qed.
Print Assumptions C71_conditions.

(** The fund pays at most what it has, and nothing for tokens that are not insured.  It buys back liab tokens at
    the oracle price plus the liquidation fee (same token: one for one), as many as asked for and owed, rounded up to a
    whole insurance token. *)
Theorem C71_insurance e s mx liqor_flag liqor_ok s' pay liab soc :
  benv_ok e -> bstate_ok e s -> token_liq_bankruptcy e s mx liqor_flag liqor_ok = Some (s', (pay, liab, soc)) ->
  exists f, insurance_price e f /\ 0 <= pay <= available e s /\ bs_vault s' = bs_vault s - pay /\
    (pay - 1) * (fone * fone) < Z.min (debt s) mx * f /\
    (pay < available e s -> Z.min (debt s) mx * f < pay * (fone * fone) + fone) /\
    liab * f <= pay * (fone * fone) < (liab + 1) * f /\
    liab * f < Z.min (debt s) mx * f + fone * fone.
Proof.
  intros K O H. pose proof O as (_ & _ & _ & _ & _ & V0). apply bankr_inv in H as (B & lb & lb1 & ib1 & ee1 & oi1 & ol1 & ex & b0 & h & LF & EB & AP & Elb & HN & EI & EN & _ & ES & E0 & EA & Eh & Ef & Ek & E1 & E2 & E3 & E4); [|exact O].
  apply amounts_inv in EI; [|exact K|lia|exact V0]. cbn zeta in EI. destruct EI as (f & F1 & F2 & F3 & F4 & F5 & F6 & F7 & F8).
  exists f. rewrite (lb_debt _ _ Elb). split; [exact F2|]. split; [exact F3|]. split; [exact E4|].
  pose proof (fmul_bounds (Z.min (- native lb (bs_ee s)) mx) f) as [M1 M2]. set (m := Z.min _ _) in *. set (fm := fmul m f) in *. pose proof fone_pos as FP. clearbody m fm.
  assert (X : (pay - 1) * (fone * fone) < m * f) by nia. split; [exact X|].
  split; [intros Q; change (available e s) with (if be_eligible e then bs_vault s else 0) in Q; specialize (F6 Q); nia|]. split; [lia|]. lia.
Qed.
Print Assumptions C71_insurance.

(** Depositors are the last resort: they pay only when the fund has nothing left for this token; they pay exactly the
    remaining debt, and the account's borrow is gone. *)
Theorem C71_last_resort e s mx liqor_flag liqor_ok s' pay liab soc lb :
  benv_ok e -> bstate_ok e s -> token_liq_bankruptcy e s mx liqor_flag liqor_ok = Some (s', (pay, liab, soc)) -> soc <> 0 ->
  nth_error (bs_banks s) (bs_k s) = Some lb ->
  0 < soc /\ pay = available e s /\ t_ix (bs_ee s') = 0 /\
  (pay = 0 -> soc = debt s) /\ debt s - liab - ix_round lb < soc < debt s - liab + fone + 2.
Proof.
  intros K O H SN HL. pose proof O as (_ & _ & _ & _ & GI & V0). apply bankr_inv in H as (B & lb' & lb1 & ib1 & ee1 & oi1 & ol1 & ex & b0 & h & LF & EB & AP & Elb & HN & EI & EN & EQ & ES & E0 & EA & Eh & Ef & Ek & E1 & E2 & E3 & E4); [|exact O].
  assert (lb' = lb) as -> by congruence. rewrite (lb_debt _ _ Elb).
  apply amounts_inv in EI; [|exact K|lia|exact V0]. cbn zeta in EI. destruct EI as (f & F1 & F2 & F3 & F4 & F5 & F6 & F7 & F8).
  destruct (ex && (0 <? - native lb1 ee1)) eqn:EX; [|destruct ES as [ES _]; congruence]. apply andb_prop in EX as [X1 X2]. apply Z.ltb_lt in X2.
  destruct ES as [ES [act EC]]. apply socialize_inv in EC as (_ & bk & _ & _ & EZ & _). split; [lia|].
  split; [rewrite X1 in F4; symmetry in F4; apply Z.eqb_eq in F4; exact F4|]. split; [exact EZ|].
  destruct (Z.ltb_spec 0 pay) as [HP|HP].
  - split; [intros; lia|]. apply insure_spec in EN; [|exact (lb_fine _ _ _ O Elb)|exact GI]. destruct EN as (_ & _ & _ & EN & _). lia.
  - assert (P0 : pay = 0) by lia. assert (L0 : liab = 0) by (destruct F2 as [F2 _]; rewrite P0 in F8; nia).
    destruct (fine_index _ (lb_fine _ _ _ O Elb)) as [IO _]. pose proof (ix_round_bound _ IO). pose proof fone_pos as FP. destruct IO. split; [intros _; lia|]. rewrite L0. split; [|lia]. assert (0 < ix_round lb) by nia. lia.
Qed.
Print Assumptions C71_last_resort.

(** If the deposits cover the loss, that is, the deposit indexes stay positive: the deposit index falls by the loss per deposited share (rounded down: the depositors together do not lose more
    than the loss), on the first bank at least, and no bank gets another index; borrow indexes do not change. *)
Theorem C71_depositors e s mx liqor_flag liqor_ok s' pay liab soc lb :
  benv_ok e -> bstate_ok e s -> token_liq_bankruptcy e s mx liqor_flag liqor_ok = Some (s', (pay, liab, soc)) -> soc <> 0 ->
  nth_error (bs_banks s) (bs_k s) = Some lb ->
  let D := sum_z b_dep (bs_banks s') in
  0 <= D -> (forall b, In b (bs_banks s') -> 0 < b_di b) ->
  exists q, 0 <= q /\ q * D <= soc * fone < q * D + D /\
    (exists b, nth_error (bs_banks s') 0 = Some b /\ b_di b = b_di lb - q) /\
    (forall i b b', nth_error (bs_banks s) i = Some b -> nth_error (bs_banks s') i = Some b' -> b_bi b' = b_bi b /\ (b_di b' = b_di lb - q \/ b_di b' = b_di b)).
Proof.
  intros K O H SN HL D D0 CV. pose proof O as (_ & _ & _ & GB & GI & V0). apply bankr_inv in H as (B & lb' & lb1 & ib1 & ee1 & oi1 & ol1 & ex & b0 & h & LF & EB & AP & Elb & HN & EI & EN & EQ & ES & E0 & EA & Eh & Ef & Ek & E1 & E2 & E3 & E4); [|exact O].
  assert (lb' = lb) as -> by congruence.
  destruct (ex && (0 <? - native lb1 ee1)) eqn:EX; [|destruct ES as [ES _]; congruence]. apply andb_prop in EX as [_ X2]. apply Z.ltb_lt in X2.
  assert (FX : bank_fine lb1 /\ b_di lb1 = b_di lb /\ b_bi lb1 = b_bi lb).
  { destruct (0 <? pay).
    - apply insure_spec in EN; [|exact (lb_fine _ _ _ O Elb)|exact GI]. destruct EN as (Q1 & Q2 & _). unfold bank_moved in Q2. intuition.
    - destruct EN as (-> & _). split; [exact (lb_fine _ _ _ O Elb)|auto]. }
  destruct FX as (F1 & F2 & F3). destruct ES as [ES [act EC]]. apply socialize_inv in EC as (L0 & bk & EK & DN & EZ & EC).
  rewrite set_nth_nth, Nat.eqb_refl, Elb in EK. apply some_inj in EK. subst bk. set (banks1 := set_nth (bs_banks s) (bs_k s) lb1) in *.
  assert (G1 : forall b, In b banks1 -> bank_fine b) by (intros b Hb; apply in_set_nth in Hb as [Hb| ->]; auto).
  set (q := fdiv soc (sum_z b_dep banks1)) in *.
  assert (TE : t_ix ee1 < 0) by (apply (native_neg lb1); [apply fine_index; exact F1|lia]).
  assert (HB1 : exists x rest, banks1 = x :: rest). { destruct banks1 as [|x rest]; [cbn in DN; lia|eauto]. } destruct HB1 as (x & rest & HB1).
  assert (HB : exists b, nth_error (bs_banks s') 0 = Some b /\ b_di b = b_di lb1 - q) by (rewrite HB1 in EC at 1; exact (credit_head _ _ _ _ _ _ _ _ _ _ EC)).
  assert (NDI : 0 < b_di lb1 - q). { destruct HB as (b & HB & <-). apply CV. exact (nth_error_In _ _ HB). }
  apply credit_shape in EC as (T & _ & S1 & S2); [|exact NDI|exact G1]. rewrite EZ, Z.max_r, (Z.max_r (t_ix ee1)) in S1 by lia.
  assert (ED : sum_z b_dep banks1 = D) by (unfold D; lia). rewrite ED in DN.
  assert (DP : 0 < D) by lia. pose proof (BankFacts.fdiv_pos_bounds soc D ltac:(lia) DP) as [Q0 [Q1 Q2]].
  assert (EqQ : q = fdiv soc D) by (unfold q; rewrite ED; reflexivity). rewrite <- EqQ in *.
  exists q. split; [exact Q0|]. split; [lia|]. rewrite F2 in HB. split; [exact HB|].
  intros i b b' Hb Hb'. assert (N1 : exists c, nth_error banks1 i = Some c /\ b_di c = b_di b /\ b_bi c = b_bi b).
  { unfold banks1. rewrite set_nth_nth, Hb. destruct (Nat.eqb_spec (bs_k s) i) as [<-|]; [exists lb1; rewrite Elb in Hb; apply some_inj in Hb; subst b; auto|exists b; auto]. }
  destruct N1 as (c & N1 & N2 & N3). clearbody q banks1. clear - T N1 N2 N3 Hb' F2. revert i N1 Hb'. induction T as [|y z l l' R T IH]; intros [|i] N1 Hb'; cbn [nth_error] in *; try discriminate.
  - apply some_inj in N1, Hb'. subst y z. destruct R as [R1 [R2|R2]]; [split; [congruence|left; congruence]|subst b'; split; [congruence|right; congruence]].
  - exact (IH i N1 Hb').
Qed.
Print Assumptions C71_depositors.

(** If nothing is put on the depositors, no index changes, no other bank of the token changes, and the liqee's debt
    falls by the tokens bought back, up to rounding. *)
Theorem C71_no_loss e s mx liqor_flag liqor_ok s' pay liab lb :
  benv_ok e -> bstate_ok e s -> token_liq_bankruptcy e s mx liqor_flag liqor_ok = Some (s', (pay, liab, 0)) ->
  nth_error (bs_banks s) (bs_k s) = Some lb ->
  (forall i b b', nth_error (bs_banks s) i = Some b -> nth_error (bs_banks s') i = Some b' -> b_di b' = b_di b /\ b_bi b' = b_bi b /\ (i <> bs_k s -> b' = b)) /\
  - ix_round lb < debt s' - (debt s - liab) < fone + 2.
Proof.
  intros K O H HL. pose proof O as (_ & _ & _ & GB & GI & V0). apply bankr_inv in H as (B & lb' & lb1 & ib1 & ee1 & oi1 & ol1 & ex & b0 & h & LF & EB & AP & Elb & HN & EI & EN & EQ & ES & E0 & EA & Eh & Ef & Ek & E1 & E2 & E3 & E4); [|exact O].
  assert (lb' = lb) as -> by congruence. apply amounts_inv in EI; [|exact K|lia|exact V0]. cbn zeta in EI. destruct EI as (f & F1 & F2 & F3 & F4 & F5 & F6 & F7 & F8).
  assert (ES' : bs_banks s' = set_nth (bs_banks s) (bs_k s) lb1 /\ bs_ee s' = ee1).
  { destruct (ex && _); [|destruct ES as (_ & A1 & A2); auto]. destruct ES as [ES [act X]]. apply socialize_inv in X as [X _]. lia. }
  destruct ES' as [ES1 ES2].
  assert (FX : b_di lb1 = b_di lb /\ b_bi lb1 = b_bi lb /\ liab - fone - 2 < native lb1 ee1 - native lb (bs_ee s) < liab + ix_round lb).
  { destruct (Z.ltb_spec 0 pay).
    - apply insure_spec in EN; [|exact (lb_fine _ _ _ O Elb)|exact GI]. destruct EN as (_ & Q2 & _ & Q4 & _). unfold bank_moved in Q2. intuition.
    - destruct EN as (-> & _ & -> & _). assert (L0 : liab = 0) by (destruct F2 as [F2 _]; assert (pay = 0) as P0 by lia; rewrite P0 in F8; nia).
      destruct (fine_index _ (lb_fine _ _ _ O Elb)) as [IO _]. pose proof (ix_round_bound _ IO). pose proof fone_pos as FP. destruct IO. do 2 (split; [reflexivity|]). assert (0 < ix_round lb) by nia. lia. }
  destruct FX as (X1 & X2 & X3). split.
  - intros i b b' Hb Hb'. rewrite ES1, set_nth_nth, Hb in Hb'. destruct (Nat.eqb_spec (bs_k s) i) as [<-|NE].
    + rewrite Elb in Hb. apply some_inj in Hb, Hb'. subst b b'. do 2 (split; [assumption|]). congruence.
    + apply some_inj in Hb'. subst b'. auto.
  - rewrite (lb_debt _ _ Elb). unfold debt. rewrite Ek, ES1, ES2, set_nth_nth, Nat.eqb_refl, Elb. lia.
Qed.
Print Assumptions C71_no_loss.

(** The borrow is dealt with completely unless the fund still has money and the caller asked for less. *)
Theorem C71_complete e s mx liqor_flag liqor_ok s' pay liab soc :
  benv_ok e -> bstate_ok e s -> token_liq_bankruptcy e s mx liqor_flag liqor_ok = Some (s', (pay, liab, soc)) -> 0 < debt s' ->
  soc = 0 /\ be_eligible e = true /\ 0 < bs_vault s' /\
  exists f, insurance_price e f /\ Z.min (debt s) mx * f < pay * (fone * fone) + fone.
Proof.
  intros K O H HD. destruct (C71_insurance _ _ _ _ _ _ _ _ _ K O H) as (f & I1 & I2 & I3 & I4 & I5 & I6 & I7).
  pose proof O as (_ & _ & _ & GB & GI & V0). apply bankr_inv in H as (B & lb & lb1 & ib1 & ee1 & oi1 & ol1 & ex & b0 & h & LF & EB & AP & Elb & HN & EI & EN & EQ & ES & E0 & EA & Eh & Ef & Ek & E1 & E2 & E3 & E4); [|exact O].
  apply amounts_inv in EI; [|exact K|lia|exact V0]. cbn zeta in EI. destruct EI as (f' & _ & _ & _ & F4 & _).
  destruct (ex && (0 <? - native lb1 ee1)) eqn:EX.
  - destruct ES as [ES [act X]]. apply socialize_inv in X as (_ & bk & _ & _ & X & _). unfold debt in HD. destruct (nth_error (bs_banks s') (bs_k s')) as [bb|]; [|lia].
    exfalso. unfold native in HD. rewrite X in HD. cbn [Z.ltb Z.compare] in HD. unfold fmul in HD. rewrite Z.mul_0_l, Z.div_0_l in HD by (pose proof fone_pos; lia). lia.
  - destruct ES as (ES & ES1 & ES2). split; [exact ES|]. unfold debt in HD. rewrite Ek, ES1, ES2, set_nth_nth, Nat.eqb_refl, Elb in HD.
    rewrite (proj2 (Z.ltb_lt _ _)) in EX by exact HD. rewrite andb_true_r in EX. rewrite EX in F4. symmetry in F4. apply Z.eqb_neq in F4.
    unfold available in *. destruct (be_eligible e); [|lia]. split; [reflexivity|]. split; [lia|]. exists f. split; [exact I1|]. apply I5. lia.
Qed.
Print Assumptions C71_complete.

(** The liqor gets exactly the insurance tokens and takes over the bought liab tokens, plus the loan origination fee on
    what it has to borrow; if the debt is in the insurance token, or nothing is paid, the liqor is not involved. *)
Theorem C71_liqor e s mx liqor_flag liqor_ok s' pay liab soc lb :
  benv_ok e -> bstate_ok e s -> token_liq_bankruptcy e s mx liqor_flag liqor_ok = Some (s', (pay, liab, soc)) ->
  nth_error (bs_banks s) (bs_k s) = Some lb ->
  (0 < pay /\ be_ins_price e <> None ->
   let fee := fmul (b_lof lb) (Z.max 0 (liab - Z.max (native lb (bs_or_liab s)) 0)) in
   of_int pay - fone - 2 < native (bs_ins s') (bs_or_ins s') - native (bs_ins s) (bs_or_ins s) < of_int pay + ix_round (bs_ins s) /\
   - (liab + fee) - fone - 2 < native lb (bs_or_liab s') - native lb (bs_or_liab s) < - (liab + fee) + ix_round lb) /\
  (~ (0 < pay /\ be_ins_price e <> None) -> bs_ins s' = bs_ins s /\ bs_or_ins s' = bs_or_ins s /\ bs_or_liab s' = bs_or_liab s).
Proof.
  intros K O H HL. pose proof O as (_ & _ & _ & GB & GI & V0). apply bankr_inv in H as (B & lb' & lb1 & ib1 & ee1 & oi1 & ol1 & ex & b0 & h & LF & EB & AP & Elb & HN & EI & EN & EQ & ES & E0 & EA & Eh & Ef & Ek & E1 & E2 & E3 & E4); [|exact O].
  assert (lb' = lb) as -> by congruence. subst ib1 oi1 ol1. destruct (Z.ltb_spec 0 pay) as [HP|HP].
  - apply insure_spec in EN; [|exact (lb_fine _ _ _ O Elb)|exact GI]. destruct EN as (_ & M & _ & _ & EN). destruct (be_ins_price e) as [ip|].
    + destruct EN as (_ & _ & _ & D1 & (_ & D2) & _). split; [|intros X; exfalso; apply X; split; [exact HP|discriminate]]. intros _. split; [exact D1|].
      rewrite (native_same lb lb1) in D2 by (unfold bank_moved in M; intuition). exact D2.
    + split; [intros [_ X]; congruence|]. intros _. intuition.
  - split; [intros [X _]; lia|]. intros _. intuition.
Qed.
Print Assumptions C71_liqor.

(** Where the money goes: the insurance tokens arrive in the insurance token's bank (or in the liab bank, when that is the
    same token) as claims of the liqor (or the liqee); otherwise the claims on the liab bank only move from the liqee to the
    liqor and the fees. *)
Theorem C71_conserved e s mx liqor_flag liqor_ok s' pay liab lb lb' :
  benv_ok e -> bstate_ok e s -> token_liq_bankruptcy e s mx liqor_flag liqor_ok = Some (s', (pay, liab, 0)) ->
  nth_error (bs_banks s) (bs_k s) = Some lb -> nth_error (bs_banks s') (bs_k s) = Some lb' ->
  let none := mkTpos 0 0 in
  bank_moved lb lb' (bs_ee s) (bs_ee s') (bs_or_liab s) (bs_or_liab s') /\
  bank_moved (bs_ins s) (bs_ins s') (bs_or_ins s) (bs_or_ins s') none none /\
  (- 2 * fone < two_claims lb' (bs_ee s') (bs_or_liab s') - two_claims lb (bs_ee s) (bs_or_liab s)
      - (match be_ins_price e with Some _ => 0 | None => of_int pay * fone end) < 2 * Z.max (b_di lb) (b_bi lb)) /\
  (- fone < two_claims (bs_ins s') (bs_or_ins s') none - two_claims (bs_ins s) (bs_or_ins s) none
      - (match be_ins_price e with Some _ => of_int pay * fone | None => 0 end) < Z.max (b_di (bs_ins s)) (b_bi (bs_ins s))).
Proof.
  intros K O H HL HL' none. pose proof O as (_ & _ & _ & GB & GI & V0). apply bankr_inv in H as (B & lbx & lb1 & ib1 & ee1 & oi1 & ol1 & ex & b0 & h & LF & EB & AP & Elb & HN & EI & EN & EQ & ES & E0 & EA & Eh & Ef & Ek & E1 & E2 & E3 & E4); [|exact O].
  assert (lbx = lb) as -> by congruence. subst ib1 oi1 ol1. apply amounts_inv in EI; [|exact K|lia|exact V0]. cbn zeta in EI. destruct EI as (f & _ & _ & P0 & _).
  assert (ES' : bs_banks s' = set_nth (bs_banks s) (bs_k s) lb1 /\ bs_ee s' = ee1).
  { destruct (ex && _); [|destruct ES as (_ & A1 & A2); auto]. destruct ES as [ES [act X]]. apply socialize_inv in X as [X _]. lia. }
  destruct ES' as [ES1 ES2]. rewrite ES1, set_nth_nth, Nat.eqb_refl, Elb in HL'. apply some_inj in HL'. subst lb'. rewrite ES2.
  assert (RF : forall b p q, bank_moved b b p p q q) by (intros; unfold bank_moved; repeat (split; [first [lia|reflexivity]|]); reflexivity).
  pose proof fone_pos as FP. destruct (fine_index _ (lb_fine _ _ _ O Elb)) as [[I1 I2] _]. destruct (fine_index _ GI) as [[I3 I4] _].
  destruct (Z.ltb_spec 0 pay) as [HP|HP].
  - apply insure_spec in EN; [|exact (lb_fine _ _ _ O Elb)|exact GI]. destruct EN as (_ & M & _ & _ & EN). split; [exact M|]. destruct (be_ins_price e) as [ip|].
    + destruct EN as (D1 & D2 & D3 & _). split; [exact D2|]. unfold none. split; [lia|]. lia.
    + destruct EN as (-> & -> & X1 & X2 & X3 & X4). split; [apply RF|]. split; [lia|]. lia.
  - destruct EN as (-> & -> & -> & -> & ->). assert (pay = 0) as -> by lia. change (of_int 0) with 0. split; [apply RF|]. split; [apply RF|]. destruct (be_ins_price e); lia.
Qed.
Print Assumptions C71_conserved.

(** The bankruptcy of an uninsured debt goes through: with one bank, whose deposits are not zero and whose totals count the
    borrow, and an account with nothing else to liquidate, the instruction succeeds for every request of zero or more. *)
Theorem C71_goes_through e s mx liqor_ok b t B f :
  benv_ok e -> bstate_ok e s -> bs_banks s = [b] -> bs_k s = 0%nat -> be_eligible e = false ->
  hc_serum (bs_cache s) = [] -> balances (bs_cache s) HLiqEnd false = Some B ->
  in_phase1 (bs_cache s) = false -> in_phase2 (bs_cache s) (combine (hc_tokens (bs_cache s)) B) = false ->
  In t (hc_tokens (bs_cache s)) -> ti_index t = be_il e -> - ti_spot t = debt s ->
  fone <= b_bi b -> 0 < b_dep b -> t_ix (bs_ee s) < 0 -> - t_ix (bs_ee s) <= b_bor b ->
  0 < b_win_size b -> 0 <= b_win_net b < 2 ^ 63 -> b_win_start b <= be_now e ->
  0 <= mx -> liab_to_insurance e = Some f -> 0 < f -> fmul (Z.min (debt s) mx) f < of_int (2 ^ 64 - 1) ->
  exists s', token_liq_bankruptcy e s mx false liqor_ok = Some (s', (0, 0, debt s)) /\ debt s' = 0.
Proof.
  intros K O EB EK EL ES HB P1 P2 T1 T2 T3 BI DP TE BO WS WN WB MX EF FP0 FB. pose proof O as (ND & FO & _ & GB & GI & V0).
  assert (FBk : bank_fine b) by (apply GB; rewrite EB; left; reflexivity). destruct (fine_index _ FBk) as [IO LO].
  assert (DE : debt s = - native b (bs_ee s)) by (unfold debt; rewrite EB, EK; reflexivity).
  assert (NN : native b (bs_ee s) < 0) by (apply native_neg; assumption).
  assert (AP : after_phase2 (bs_cache s) (combine (hc_tokens (bs_cache s)) B) = true).
  { unfold in_phase1, in_phase2, has_phase1, has_phase2 in P1, P2. unfold after_phase2, after_phase1. clear - P1 P2.
    destruct (existsb (fun s => negb (si_zero s)) _), (existsb pi_orders _), (has_spot_liquidations _), (has_perp_base _), (has_perp_open_fills _), (has_perp_positive _); cbn in *; auto; discriminate. }
  apply In_nth_error in T1 as [il Hil]. pose proof (token_pos_nth _ ND _ _ Hil) as TP. rewrite T2 in TP.
  pose proof (phase2_balance _ _ _ _ _ ND FO HB AP Hil) as PB.
  unfold token_liq_bankruptcy. cbn [negb guard]. rewrite HB, AP, EB, EK. cbn [guard nth_error]. rewrite TP.
  rewrite (proj2 (Z.ltb_lt _ _) NN). rewrite (proj2 (Z.ltb_lt (nth il B 0) 0)) by lia. cbn [guard].
  rewrite (Z.min_l (- native b (bs_ee s))) by lia.
  assert (IA : insurance_amounts e (- native b (bs_ee s)) mx (bs_vault s) = Some (0, 0, true)).
  { unfold insurance_amounts. rewrite EF, EL. rewrite <- DE. set (m := fmul _ f) in *. pose proof (ceil_int_bounds m) as [C1 C2].
    assert (M0 : 0 <= m) by (apply fmul_nonneg; lia). unfold of_int in C1, C2, FB. pose proof fone_pos as FP. assert (X1 : 0 <= ceil_int m) by nia. assert (X2 : ceil_int m < 2 ^ 64) by nia.
    rewrite (proj2 (Z.leb_le _ _) X1), (proj2 (Z.ltb_lt _ _) X2). cbn [andb guard]. rewrite Z.min_r by lia. unfold cdiv. destruct (Z.eqb_spec f 0); [lia|].
    change (of_int 0) with 0. unfold fdiv. rewrite Z.mul_0_l, Z.quot_0_l by lia. reflexivity. }
  rewrite IA. cbn [Z.ltb Z.compare andb set_nth]. rewrite (proj2 (Z.ltb_lt 0 (- native b (bs_ee s)))) by lia.
  destruct (socialize_live b (bs_ee s) (be_now e) FBk BI DP TE BO) as (b' & p' & act & SL & PZ).
  - intros x Hx. unfold update_net_borrows. cbn [set_index b_win_start b_win_size b_win_net].
    destruct (_ <=? be_now e); [destruct (Z.eqb_spec (b_win_size b) 0); [lia|eauto]|]. unfold chk_i64.
    assert (CL : i64_min <= clamp_i64 (fceil x) <= 0). { unfold clamp_i64, to_int, fceil. assert (- (- x / fone) * fone / fone <= 0) by (rewrite Z.div_mul by (pose proof fone_pos; lia); pose proof (Z.div_pos (- x) fone ltac:(lia) fone_pos); lia). unfold i64_min, i64_max. lia. }
    unfold i64_min, i64_max in *. set (cl := clamp_i64 _) in *. clearbody cl. change (2 ^ 63) with 9223372036854775808 in *.
    match goal with |- context [if ?c then _ else _] => replace c with true by (symmetry; unfold in_i64b, i64_min, i64_max; apply andb_true_iff; split; apply Z.leb_le; lia) end. eauto.
  - lia.
  - unfold native_borrows. pose proof (fmul_bounds (b_bi b) (b_bor b)). pose proof fone_pos. set (m := fmul (b_bi b) (b_bor b)) in *. clearbody m. assert (Y : fone * 1 <= b_bi b * b_bor b) by (apply Z.mul_le_mono_nonneg; lia). assert (0 < m) by nia. clear - H1 NN. lia.
  - rewrite SL. cbn [nth_error].
    assert (N0 : native b' p' = 0). { unfold native. rewrite PZ. cbn [Z.ltb Z.compare]. apply fmul_0_l. }
    destruct (adjust_token_balance _ _ _ _) as [hc'|] eqn:EA.
    2: { unfold adjust_token_balance in EA. rewrite TP in EA. discriminate. }
    destruct (adjust_spec _ _ _ _ _ _ EA HB) as (i & _ & HB' & _ & HS & _).
    assert (Hh : exists h, Health.health hc' HLiqEnd = Some h). { unfold Health.health. rewrite HB'. unfold health_sum, serum_contributions. rewrite HS, ES. cbn [reservations combine map]. eauto. }
    destruct Hh as [h Hh]. rewrite Hh. eexists. rewrite DE. split; [reflexivity|]. unfold debt. cbn [bs_banks bs_k bs_ee nth_error]. rewrite N0. reflexivity.
Qed.
Print Assumptions C71_goes_through.

(** ** examples *)
Definition ex_bbank (p : tpos) (dep : Z) : bank := set_totals ex_bank (of_int dep / 1000000) (Z.max (- t_ix p) 0) 0 0.
Definition ex_bankr (debt dep vault : Z) (price : fx) : bstate :=
  let p := ex_tpos (- debt) in let b := ex_bbank p dep in let z := mkTpos 0 0 in
  mkBS (mkHC [ex_info 1 80 90 110 120 price b p] [] []) false [b] 0 (ex_bbank z 500) p z z vault.
Definition ex_benv (fee : Z) (price : fx) (ip : option fx) (el : bool) : benv := mkBE (pct fee) price ip el 1 50 (0, 0).
Ltac bstok := split; [cbn; repeat constructor; cbn; intuition discriminate|]; split; [split; constructor|]; split;
  [eexists; split; [left; reflexivity|]; split; [reflexivity|vm_compute; reflexivity]|]; split;
  [intros b [<-|[]]; split; [zc|split; zc]|]; split; [split; [zc|split; zc]|zc].
Ltac benvok := split; [zc|]; split; [zc|]; first [intros p H; apply some_inj in H; subst p; zc|discriminate].
(** a debt of 90 tokens of price 2; the fund has 100 tokens and buys back almost 48; the rest is put on
    deposits of 1000 *)
Example C71_example : let e := ex_benv 5 (2 * fone) (Some fone) true in let s := ex_bankr 90 1000 100 (2 * fone) in
  benv_ok e /\ bstate_ok e s /\
  exists s' pay liab soc, token_liq_bankruptcy e s (of_int 1000) false (fun _ _ _ _ => true) = Some (s', (pay, liab, soc)) /\
    pay = 100 /\ of_int 47 < liab < of_int 48 /\ of_int 42 < soc < of_int 43 /\ bs_vault s' = 0 /\ debt s' = 0 /\
    of_int 100 <= native (bs_ins s') (bs_or_ins s') < of_int 101 /\ (forall b, In b (bs_banks s') -> 0 < b_di b).
Proof.
  cbv zeta. split; [benvok|]. split; [bstok|]. do 4 eexists. split; [vm_compute; reflexivity|]. split; [reflexivity|].
  do 2 (split; [split; zc|]). do 2 (split; [vm_compute; reflexivity|]). split; [split; zc|].
  intros b [<-|[]]. zc.
Qed.
(** the same with enough insurance and a small request: half of it is left to the next call *)
Example C71_example2 : let e := ex_benv 5 (2 * fone) (Some fone) true in let s := ex_bankr 90 1000 1000 (2 * fone) in
  benv_ok e /\ bstate_ok e s /\
  exists s' pay liab, token_liq_bankruptcy e s (of_int 45) false (fun _ _ _ _ => true) = Some (s', (pay, liab, 0)) /\
    pay = 95 /\ of_int 45 < liab < of_int 46 /\ of_int 44 < debt s' < of_int 45 /\ bs_vault s' = 905.
Proof.
  cbv zeta. split; [benvok|]. split; [bstok|]. do 3 eexists. split; [vm_compute; reflexivity|]. split; [reflexivity|].
  do 2 (split; [split; zc|]). vm_compute. reflexivity.
Qed.
(** "no more than asked for and owed is bought" is false: for a cheap token, one whole insurance token buys a
    million times the debt, which becomes a deposit of the liqee and a debt of the liqor *)
Theorem C71_overshoot_refuted : exists e s s' pay liab, benv_ok e /\ bstate_ok e s /\
  token_liq_bankruptcy e s (of_int 1) false (fun _ _ _ _ => true) = Some (s', (pay, liab, 0)) /\
  pay = 1 /\ debt s < of_int 2 /\ of_int 900000 < liab /\ debt s' < of_int (-900000).
Proof.
  exists (ex_benv 5 (fone / 1000000) (Some fone) true), (ex_bankr 1 1000 1000 (fone / 1000000)).
  do 3 eexists. split; [benvok|]. split; [bstok|]. split; [vm_compute; reflexivity|]. split; [reflexivity|]. do 2 (split; [zc|]). zc.
Qed.
Print Assumptions C71_overshoot_refuted.
(** an uninsured debt *)
Example C71_example3 : let e := ex_benv 5 (2 * fone) (Some fone) false in let s := ex_bankr 90 1000 1000 (2 * fone) in
  exists s', token_liq_bankruptcy e s 0 false (fun _ _ _ _ => true) = Some (s', (0, 0, debt s)) /\ debt s' = 0.
Proof.
  cbv zeta. refine (C71_goes_through _ _ _ _ (ex_bbank (ex_tpos (-90)) 1000) (ex_info 1 80 90 110 120 (2 * fone) (ex_bbank (ex_tpos (-90)) 1000) (ex_tpos (-90)))
    [native (ex_bbank (ex_tpos (-90)) 1000) (ex_tpos (-90))] (match liab_to_insurance (ex_benv 5 (2 * fone) (Some fone) false) with Some f => f | None => 0 end) _ _ _ _ _ _ _ _ _ _ _ _ _ _ _ _ _ _ _ _ _ _ _).
  - benvok.
  - bstok.
  - reflexivity.
  - reflexivity.
  - reflexivity.
  - reflexivity.
  - vm_compute; reflexivity.
  - reflexivity.
  - vm_compute; reflexivity.
  - left; reflexivity.
  - reflexivity.
  - vm_compute; reflexivity.
  - zc.
  - zc.
  - zc.
  - zc.
  - zc.
  - split; zc.
  - zc.
  - zc.
  - vm_compute; reflexivity.
  - zc.
  - zc.
Qed.
