(** C19, C22: funding, loss socialization, and conservation of quote in a perp
    market over all instructions. *)
From Coq Require Import List ZArith Lia Bool Arith.
From Verif Require Import OrderTree Keys Fixed BookSide EventQueue PerpTypes Book
  BookLoop BookApply BookPlace BookSpec BookFacts BookResults BookResults2 BookCancel BookKeep PerpSystem PerpSpec PerpLots PerpInv PerpFeeSpec PerpFees
  PropPerp SettleLimit SettleSpec SettleFacts PropSettle PerpMoney PerpMoneySpec PerpClaims PerpClaims2.
Import ListNotations.
Open Scope Z_scope.

(** ** C19 *)
Lemma fmul_abs a b : Z.abs (fmul a b) * fone <= Z.abs (a * b) + fone.
Proof. pose proof (fmul_bounds a b). pose proof fone_pos. nia. Qed.
Lemma rate_bound mk fc oracle bid ask r R : funding_rate mk fc oracle bid ask = Some r ->
  Z.abs (fc_min fc) <= R -> Z.abs (fc_max fc) <= R -> Z.abs r <= R.
Proof.
  unfold funding_rate. destruct bid as [b|], ask as [a|]; intros H H1 H2.
  - destruct ((oracle =? 0) || (mk_bls mk =? 0) || (fc_max fc <? fc_min fc)) eqn:E; [discriminate|]. apply orb_false_iff in E as [_ E]. apply Z.ltb_ge in E.
    apply some_inj in H. revert H. generalize (fdiv (lot_to_native_price mk (Z.quot (b + a) 2)) oracle - fone). intros d <-. lia.
  - apply some_inj in H; subst; assumption.
  - apply some_inj in H; subst; assumption.
  - apply some_inj in H; subst. lia.
Qed.
Lemma delta_bound oracle bls rate dt P R : Z.abs oracle <= P -> Z.abs rate <= R -> 0 <= bls -> 0 <= dt <= 3600 ->
  Z.abs (fmul (fmul (fmul oracle (of_int bls)) rate) (fdiv (of_int dt) (of_int 86400))) * (fone * 86400) <= P * bls * R * dt + 2 * (fone * 86400).
Proof.
  intros HP HR Hb Hdt. rewrite fmul_int_r.
  pose proof (fdiv_pos_bounds (of_int dt) (of_int 86400)) as Htf. set (tf := fdiv (of_int dt) (of_int 86400)) in *.
  assert (Htf' : 0 <= tf /\ tf * 86400 <= dt * fone).
  { assert (X1 : 0 <= of_int dt) by (unfold of_int; pose proof fone_pos; nia). assert (X2 : 0 < of_int 86400) by reflexivity.
    specialize (Htf X1 X2). split; [apply (fdiv_nonneg _ _ X1 X2)|]. unfold of_int in Htf. pose proof fone_pos. nia. }
  clearbody tf. clear Htf. destruct Htf' as [T0 T1]. pose proof fone_pos as Hf.
  pose proof (fmul_abs (oracle * bls) rate) as A1. set (A := fmul (oracle * bls) rate) in *. clearbody A.
  pose proof (fmul_abs A tf) as A2. set (D := fmul A tf) in *. clearbody D.
  assert (B1 : Z.abs (oracle * bls * rate) <= P * bls * R).
  { rewrite !Z.abs_mul, (Z.abs_eq bls) by lia. apply Z.mul_le_mono_nonneg.
    - apply Z.mul_nonneg_nonneg; lia.
    - apply Z.mul_le_mono_nonneg_r; lia.
    - lia.
    - lia. }
  assert (B2 : Z.abs (A * tf) = Z.abs A * tf) by (rewrite Z.abs_mul, (Z.abs_eq tf) by lia; reflexivity).
  rewrite B2 in A2. set (W := P * bls * R) in *. clearbody W. assert (HW : 0 <= W) by lia.
  set (a := Z.abs A) in *. assert (Ha : 0 <= a) by (unfold a; lia). clearbody a. set (d := Z.abs D) in *. clearbody d.
  assert (C1 : a * fone <= W + fone) by lia.
  (* d fone 86400 <= a tf 86400 + fone 86400 <= a dt fone + fone 86400 <= (W + fone) dt + fone 86400 *)
  assert (C2 : a * (tf * 86400) <= a * (dt * fone)) by (apply Z.mul_le_mono_nonneg_l; lia).
  assert (C3 : a * fone * dt <= (W + fone) * dt) by (apply Z.mul_le_mono_nonneg_r; lia).
  assert (C4 : fone * dt <= fone * 86400) by (apply Z.mul_le_mono_nonneg_l; lia).
  lia.
Qed.

(** an update never acts when the clock did not advance; otherwise it moves both indexes by
    the same amount, at most price * lot size * rate for the elapsed part of the day, of
    which at most one hour counts; nothing else of the market changes *)
Theorem C19_update : forall bk mk fc last oracle now mk' last' R, 0 <= mk_bls mk ->
  Z.abs (fc_min fc) <= R -> Z.abs (fc_max fc) <= R ->
  update_funding bk mk fc last oracle now = Some (mk', last') ->
  (now <= last -> mk' = mk /\ last' = last) /\
  (last < now -> last' = now) /\
  exists d, mk' = mkMarket (mk_index mk) (mk_seq mk) (mk_bls mk) (mk_qls mk) (mk_maker_fee mk) (mk_taker_fee mk) (mk_penalty mk)
      (mk_fees_accrued mk) (mk_open_interest mk) (mk_long_funding mk + d) (mk_short_funding mk + d) (mk_maint_asset_w mk) (mk_maint_liab_w mk) /\
    Z.abs d * (fone * 86400) <= Z.abs oracle * mk_bls mk * R * Z.min (Z.max (now - last) 0) 3600 + 2 * (fone * 86400).
Proof.
  intros bk mk fc last oracle now mk' last' R Hb H1 H2 H. unfold update_funding in H. destruct (Z.leb_spec now last) as [Hl|Hl].
  - apply some_inj in H. injection H as <- <-. split; [auto|]. split; [lia|]. exists 0. rewrite !Z.add_0_r. split; [destruct mk; reflexivity|].
    rewrite Z.max_r by lia. pose proof fone_pos. lia.
  - destruct (native_price_to_lot mk oracle) as [ol|]; [|discriminate]. destruct (bs_valid_items _ _ _ _) as [B|]; [|discriminate].
    destruct (bs_valid_items _ _ _ _) as [A|]; [|discriminate]. destruct (funding_rate _ _ _ _ _) as [rate|] eqn:Er; [|discriminate].
    apply some_inj in H. injection H as <- <-. split; [lia|]. split; [reflexivity|]. eexists. split; [reflexivity|].
    rewrite (Z.max_l (now - last)) by lia. unfold MAX_FUNDING_STEP, DAY.
    apply delta_bound; try lia. eapply rate_bound; eassumption.
Qed.
Print Assumptions C19_update.

(** direction: with both impact prices, longs pay if the book's mid price is above the
    oracle price, shorts pay if it is below *)
Theorem C19_direction : forall bk mk fc last oracle now mk' last' ol B A b a,
  0 <= mk_bls mk -> 0 < oracle -> fc_min fc <= 0 <= fc_max fc ->
  update_funding bk mk fc last oracle now = Some (mk', last') ->
  native_price_to_lot mk oracle = Some ol ->
  bs_valid_items Bid (bk_bids bk) now ol = Some B -> bs_valid_items Ask (bk_asks bk) now ol = Some A ->
  impact_price (fc_impact fc) B = Some b -> impact_price (fc_impact fc) A = Some a ->
  (oracle <= lot_to_native_price mk (Z.quot (b + a) 2) -> mk_long_funding mk <= mk_long_funding mk') /\
  (lot_to_native_price mk (Z.quot (b + a) 2) <= oracle -> mk_long_funding mk' <= mk_long_funding mk).
Proof.
  intros bk mk fc last oracle now mk' last' ol B A b a Hb Ho Hm H Hol HB HA Eb Ea. unfold update_funding in H. destruct (now <=? last) eqn:El.
  - apply some_inj in H. injection H as <- <-. lia.
  - rewrite Hol, HB, HA, Eb, Ea in H. unfold funding_rate in H. destruct (_ || _) in H; [discriminate|]. apply some_inj in H. apply (f_equal fst) in H. cbn [fst] in H. subst mk'.
    cbn [with_funding mk_long_funding]. set (bp := lot_to_native_price mk (Z.quot (b + a) 2)).
    rewrite fmul_int_r. set (tf := fdiv (of_int (Z.min (now - last) MAX_FUNDING_STEP)) (of_int DAY)). apply Z.leb_gt in El.
    assert (Htf : 0 <= tf). { unfold tf. apply fdiv_nonneg; [unfold of_int; apply Z.mul_nonneg_nonneg; [unfold MAX_FUNDING_STEP; lia|apply Z.lt_le_incl, fone_pos]|reflexivity]. }
    clearbody tf bp. assert (Hpb : 0 <= oracle * mk_bls mk) by nia.
    pose proof fone_pos as Hf. split; intros Hp.
    + assert (fone <= fdiv bp oracle). { unfold fdiv. apply Z.quot_le_lower_bound; [lia|]. nia. }
      set (rate := Z.max (fc_min fc) (Z.min (fc_max fc) (fdiv bp oracle - fone))). assert (Hr : 0 <= rate) by (unfold rate; lia).
      pose proof (fmul_nonneg (fmul (oracle * mk_bls mk) rate) tf (fmul_nonneg _ _ Hpb Hr) Htf). lia.
    + assert (fdiv bp oracle <= fone).
      { unfold fdiv. apply Z.le_trans with (Z.quot (oracle * fone) oracle); [apply Z.quot_le_mono; nia|]. rewrite Z.mul_comm, Z.quot_mul; lia. }
      set (rate := Z.max (fc_min fc) (Z.min (fc_max fc) (fdiv bp oracle - fone))). assert (rate <= 0) by (unfold rate; lia).
      assert (X : fmul (oracle * mk_bls mk) rate <= 0). { unfold fmul. apply Z.div_le_upper_bound; nia. }
      assert (Y : fmul (fmul (oracle * mk_bls mk) rate) tf <= 0). { unfold fmul at 1. apply Z.div_le_upper_bound; nia. }
      lia.
Qed.
Print Assumptions C19_direction.

(** ** histories *)
Lemma grun cap capq : (0 < capq)%nat -> forall L m Q n E m' soc, inv cap capq (ms_y m) Q n -> ginv (ms_y m) Q E ->
  Forall mop_wf L -> forallb (fun x => negb (is_force_close x)) L = true -> mrun m L = Some (m', soc) ->
  exists Q' n', inv cap capq (ms_y m') Q' n' /\ ginv (ms_y m') Q' (E + sumZ (map residue soc)).
Proof.
  intros Hc. induction L as [|x L IH]; intros m Q n E m' soc HI HG HW HF Hr; cbn [mrun] in Hr.
  - apply some_inj in Hr. injection Hr as <- <-. cbn [map]. unfold sumZ; cbn [fold_right]. rewrite Z.add_0_r. eauto.
  - inversion HW; subst. cbn [forallb] in HF. apply andb_true_iff in HF as [HF1 HF2]. apply negb_true_iff in HF1.
    destruct (mstep m x) as [[m1 s1]|] eqn:E1; [|discriminate]. destruct (mrun m1 L) as [[m2 s2]|] eqn:E2; [|discriminate].
    apply some_inj in Hr. injection Hr as <- <-. destruct (gm_step _ _ _ _ _ _ _ _ _ Hc HI HG H1 HF1 E1) as (Q1 & n1 & HI1 & HG1).
    destruct (IH _ _ _ _ _ _ HI1 HG1 H2 HF2 E2) as (Q2 & n2 & HI2 & HG2). exists Q2, n2. split; [exact HI2|].
    rewrite map_app, sumZ_app, Z.add_assoc. exact HG2.
Qed.
Lemma op_wf_updates m x L last soc : mop_wf x -> updates m x = Some (L, last, soc) -> Forall op_wf L.
Proof.
  intros HW. unfold updates. destruct x as [o|fc oracle now|mf tf pe aw lw|a b c la lb price sprice bmax le mt now|pk c l price mx|
    liqor liqee c le price ms ml fh sp ip lf cover now|liqor liqee c le lo price red tr lf pf pnlf now|a b price];
    repeat match goal with |- context[match ?t with _ => _ end] => destruct t; try discriminate end;
    intros E; apply some_inj in E; injection E as <- <- <-; repeat (constructor; try exact I). exact HW.
Qed.
Lemma minv_step cap capq m Q n x m' soc : (0 < capq)%nat -> inv cap capq (ms_y m) Q n -> mop_wf x -> mstep m x = Some (m', soc) ->
  exists Q' n', inv cap capq (ms_y m') Q' n'.
Proof.
  intros Hc HI HW H. unfold mstep in H. destruct (updates m x) as [[[L last'] soc']|] eqn:EU; [|discriminate].
  destruct (run_ops (ms_y m) L) as [y'|] eqn:Hr; [|discriminate]. apply some_inj in H. injection H as <- <-. cbn [ms_y].
  eapply inv_run; [exact Hc|exact HI|eapply op_wf_updates; eassumption|exact Hr].
Qed.
Lemma minv_run cap capq : (0 < capq)%nat -> forall L m Q n m' soc, inv cap capq (ms_y m) Q n -> Forall mop_wf L -> mrun m L = Some (m', soc) ->
  exists Q' n', inv cap capq (ms_y m') Q' n'.
Proof.
  intros Hc. induction L as [|x L IH]; intros m Q n m' soc HI HW Hr; cbn [mrun] in Hr.
  - apply some_inj in Hr. injection Hr as <- <-. eauto.
  - inversion HW; subst. destruct (mstep m x) as [[m1 s1]|] eqn:E1; [|discriminate]. destruct (mrun m1 L) as [[m2 s2]|] eqn:E2; [|discriminate].
    apply some_inj in Hr. injection Hr as <- <-. destruct (minv_step _ _ _ _ _ _ _ _ Hc HI H1 E1) as (Q1 & n1 & HI1). eapply IH; eassumption.
Qed.
Lemma minv_reached cap capq m : mreached cap capq m -> (0 < capq)%nat /\ exists Q n, inv cap capq (ms_y m) Q n.
Proof.
  intros (buf & idx & bls & qls & mf & tf & pe & aw & lw & cr & L & soc & Hb & Hc & Hi & _ & _ & _ & HW & Hr). split; [exact Hc|].
  eapply minv_run; [exact Hc| |exact HW|exact Hr]. apply inv_fresh; assumption.
Qed.

(** what the elementary updates do to the market's funding indexes and lot size *)
Definition same_funding (mk mk' : market) : Prop :=
  mk_long_funding mk' = mk_long_funding mk /\ mk_short_funding mk' = mk_short_funding mk /\ mk_bls mk' = mk_bls mk.
Lemma step_funding cap capq y Q n x y' : (0 < capq)%nat -> inv cap capq y Q n -> op_wf x -> step y x = Some y' ->
  match x with OpMarket lf sf _ _ _ _ _ _ => mk_long_funding (y_mk y') = lf /\ mk_short_funding (y_mk y') = sf /\ mk_bls (y_mk y') = mk_bls (y_mk y)
  | _ => same_funding (y_mk y) (y_mk y') end.
Proof.
  intros Hc HI HW Hst. pose proof Hst as Hst0. unfold same_funding, step in *. destruct x as [pk k|pk|pk k|pk i s|pk o oracle now limit|pk id|pk cid|pk only limit| |pk1 pk2 base q1 q2|pk qt os|pk|pk|lf sf mf tf pe fe aw lw|pk];
    try (unfold cancel_slot in Hst; cbn [record_trade] in Hst; repeat match type of Hst with context[match ?t with _ => _ end] => destruct t; try discriminate end;
      apply some_inj in Hst; subst y'; auto; fail).
  - destruct (aget (y_accs y) pk) as [a|] eqn:X; [|discriminate]. destruct (new_order _ _ _ _ _ _ _ _ _) as [r|] eqn:EN; [|discriminate].
    apply some_inj in Hst; subst y'. destruct HW as [Hw Hcl]. destruct (inv_place _ _ _ _ _ _ _ _ _ _ _ _ HI Hw Hcl X EN) as (ol & new & n' & HC & HI').
    destruct (call_fees HC) as (p & p' & P1 & P2 & _ & Hfees & Emk & _). cbn [y_mk]. rewrite Emk. auto.
  - destruct (consume_inv _ _ Hst) as [(f & q' & Hp & Eb & Eq & Hf)|(u & q' & a & a' & Hp & Ha & Hx & ->)]; [|auto].
    destruct Hf as (am & am' & mk1 & at0 & at' & Hm & Em & Ht & Et & EA).
    destruct (pop_view _ _ _ _ _ _ Hc (iv_q _ _ _ _ _ HI) Hp) as (Q' & -> & _).
    pose proof (iv_qty _ _ _ _ _ HI (EFill f) (or_introl eq_refl)) as HP.
    destruct (maker_core _ _ _ _ _ HP Em) as (pm & pm' & _ & _ & _ & _ & _ & _ & _ & Emk).
    destruct (taker_core _ _ _ _ _ Et) as (pt & pt' & _ & _ & _ & _ & _ & _ & _ & Emk' & _). rewrite Emk', Emk. auto.
Qed.
Lemma run_funding cap capq : (0 < capq)%nat -> forall L y Q n y', inv cap capq y Q n -> Forall op_wf L -> run_ops y L = Some y' ->
  forall lf sf, (mk_long_funding (y_mk y), mk_short_funding (y_mk y)) = (lf, sf) ->
  Forall (fun x => match x with OpMarket l s _ _ _ _ _ _ => l = lf /\ s = sf | _ => True end) L -> same_funding (y_mk y) (y_mk y').
Proof.
  intros Hc. induction L as [|x L IH]; intros y Q n y' HI HW Hr lf sf E HM; cbn [run_ops] in Hr.
  - apply some_inj in Hr; subst. unfold same_funding; auto.
  - inversion HW; subst. inversion HM; subst. destruct (step y x) as [y1|] eqn:S; [|discriminate].
    destruct (inv_step _ _ _ _ _ _ _ Hc HI H1 S) as (Q1 & n1 & HI1). pose proof (step_funding _ _ _ _ _ _ _ Hc HI H1 S) as HS.
    injection E as <- <-.
    assert (HS' : same_funding (y_mk y) (y_mk y1)). { unfold same_funding in *. destruct x; try exact HS. destruct H3 as [-> ->]. exact HS. }
    destruct HS' as (A1 & A2 & A3). destruct (IH y1 Q1 n1 y' HI1 H2 Hr (mk_long_funding (y_mk y)) (mk_short_funding (y_mk y)) ltac:(rewrite A1, A2; reflexivity) H4) as (B1 & B2 & B3).
    unfold same_funding. repeat split; congruence.
Qed.

Lemma msf cap capq m Q n x m' P R : (0 < capq)%nat -> inv cap capq (ms_y m) Q n -> 0 <= mk_bls (y_mk (ms_y m)) -> 0 <= P -> 0 <= R ->
  mop_wf x -> funding_within P R x -> mstep m x = Some (m', []) ->
  let k := y_mk (ms_y m) in let k' := y_mk (ms_y m') in
  ms_last m <= ms_last m' /\ mk_bls k' = mk_bls k /\ exists d, mk_long_funding k' = mk_long_funding k + d /\ mk_short_funding k' = mk_short_funding k + d /\
    Z.abs d * (fone * 86400) <= P * mk_bls k * R * (ms_last m' - ms_last m) + (if is_funding x then 2 * (fone * 86400) else 0).
Proof.
  intros Hc HI Hbls HP HR HW HFW H. cbv zeta. unfold mstep in H. destruct (updates m x) as [[[L last'] soc']|] eqn:EU; [|discriminate].
  pose proof (op_wf_updates _ _ _ _ _ HW EU) as HWL.
  destruct (run_ops (ms_y m) L) as [y'|] eqn:Hr; [|discriminate]. apply some_inj in H. injection H as <- ->. cbn [ms_y ms_last].
  assert (HPR : 0 <= P * mk_bls (y_mk (ms_y m)) * R) by (repeat apply Z.mul_nonneg_nonneg; assumption).
  assert (Hgo : last' = ms_last m -> same_funding (y_mk (ms_y m)) (y_mk y') -> ms_last m <= last' /\ mk_bls (y_mk y') = mk_bls (y_mk (ms_y m)) /\
    exists d, mk_long_funding (y_mk y') = mk_long_funding (y_mk (ms_y m)) + d /\ mk_short_funding (y_mk y') = mk_short_funding (y_mk (ms_y m)) + d /\
    Z.abs d * (fone * 86400) <= P * mk_bls (y_mk (ms_y m)) * R * (last' - ms_last m) + (if is_funding x then 2 * (fone * 86400) else 0)).
  { intros -> (A1 & A2 & A3). split; [lia|]. split; [exact A3|]. exists 0. split; [lia|]. split; [lia|]. rewrite Z.sub_diag.
    pose proof fone_pos. destruct (is_funding x); lia. }
  set (y := ms_y m) in *.
  assert (Hkeep : last' = ms_last m -> Forall (fun x => match x with OpMarket l s _ _ _ _ _ _ => l = mk_long_funding (y_mk y) /\ s = mk_short_funding (y_mk y) | _ => True end) L ->
    ms_last m <= last' /\ mk_bls (y_mk y') = mk_bls (y_mk y) /\
    exists d, mk_long_funding (y_mk y') = mk_long_funding (y_mk y) + d /\ mk_short_funding (y_mk y') = mk_short_funding (y_mk y) + d /\
    Z.abs d * (fone * 86400) <= P * mk_bls (y_mk y) * R * (last' - ms_last m) + (if is_funding x then 2 * (fone * 86400) else 0)).
  { intros El HM. apply (Hgo El). eapply run_funding; [exact Hc|exact HI|exact HWL|exact Hr|reflexivity|exact HM]. }
  unfold updates in EU. fold y in EU. destruct x as [o|fc oracle now|mf tf pe aw lw|a b c la lb price sprice bmax le mt now|pk c l price mx|
    liqor liqee c le price ms ml fh sp ip lf cover now|liqor liqee c le lo price red tr lf pf pnlf now|a b price]; cbn [mop_wf funding_within is_funding] in *.
  - destruct (complete o) eqn:Ec; [|discriminate]. injection EU as <- <-. apply Hkeep; [reflexivity|]. constructor; [|constructor]. destruct o; try exact I. discriminate.
  - destruct (update_funding _ _ _ _ _ _) as [[mk' l']|] eqn:Ef; [|discriminate]. injection EU as <- <-. destruct HFW as (W1 & W2 & W3).
    destruct (C19_update _ _ _ _ _ _ _ _ R Hbls W2 W3 Ef) as (U1 & U2 & d & U3 & U4).
    cbn [run_ops] in Hr. destruct (step y (put_market mk')) as [y1|] eqn:S; [|discriminate]. apply some_inj in Hr; subst y1.
    apply st_market in S as (_ & _ & F1 & F2 & _ & _ & F3).
    assert (HL : ms_last m <= l' /\ Z.min (Z.max (now - ms_last m) 0) 3600 <= l' - ms_last m).
    { destruct (Z.le_gt_cases now (ms_last m)) as [X|X]; [destruct (U1 X)|rewrite (U2 ltac:(lia))]; lia. }
    destruct HL as [HL1 HL2]. split; [exact HL1|]. split; [exact F3|]. exists d. rewrite F1, F2, U3. cbn [mk_long_funding mk_short_funding].
    split; [reflexivity|]. split; [reflexivity|]. etransitivity; [exact U4|]. apply Z.add_le_mono_r.
    apply Z.mul_le_mono_nonneg; try lia; repeat apply Z.mul_nonneg_nonneg; try lia.
    apply Z.mul_le_mono_nonneg_r; [lia|]. apply Z.mul_le_mono_nonneg_r; lia.
  - injection EU as <- <-. apply Hkeep; [reflexivity|]. constructor; [|constructor]. split; reflexivity.
  - destruct (a =? b); [discriminate|]. destruct (get_position y a); [|discriminate]. destruct (get_position y b); [|discriminate].
    destruct (settle_pnl _ _ _ _ _ _ _ _ _ _ _ _); [|discriminate]. injection EU as <- <-. apply Hkeep; [reflexivity|]. repeat (constructor; try exact I).
  - destruct (get_position y pk) as [p|] eqn:Gp; [|discriminate].
    destruct (settle_fees _ _ _ _ _ _) as [[[[p' l'] mk'] s]|] eqn:Es; [|discriminate]. injection EU as <- <-. apply Hkeep; [reflexivity|].
    repeat (constructor; try exact I); unfold settle_fees in Es; destruct (mx =? 0); try discriminate; destruct (_ || _) in Es;
      [injection Es as _ _ <- _; reflexivity|destruct (record_settle _ _ _ _ _) as [? ?]; injection Es as _ _ <- _; reflexivity
      |injection Es as _ _ <- _; reflexivity|destruct (record_settle _ _ _ _ _) as [? ?]; injection Es as _ _ <- _; reflexivity].
  - destruct (liqor =? liqee); [discriminate|]. destruct (get_or_new y liqor) as [po|]; [|discriminate]. destruct (get_position y liqee) as [pe|]; [|discriminate].
    destruct (liq_negative _ _ _ _ _ _ _ _ _ _ _ _ _ _) as [r|] eqn:Es; [|discriminate]. apply some_inj in EU.
    pose proof (f_equal (fun z => fst (fst z)) EU) as EL. pose proof (f_equal (fun z => snd (fst z)) EU) as Ela. pose proof (f_equal snd EU) as Eso. cbn [fst snd] in EL, Ela, Eso.
    destruct (Z.ltb_spec 0 (ln_soc r)); [discriminate|]. destruct (ln_amounts _ _ _ _ _ _ _ _ _ _ _ _ _ _ _ HW Es) as [(N1 & N2) _ _ FN _].
    specialize (FN ltac:(lia)). apply Hkeep; [congruence|]. rewrite <- EL, FN. repeat (constructor; try exact I); reflexivity.
  - destruct (liqor =? liqee); [discriminate|]. destruct (get_or_new y liqor) as [po|]; [|discriminate]. destruct (get_position y liqee) as [pe|]; [|discriminate].
    destruct (liq_base _ _ _ _ _ _ _ _ _ _ _ _ _) as [r|] eqn:Es; [|discriminate]. injection EU as <- <-. destruct HW as [W1 W2].
    destruct (lb_amounts _ _ _ _ _ _ _ _ _ _ _ _ _ _ Hbls W1 W2 Es) as [_ _ _ (QM1 & QM2 & _)]. apply Hkeep; [reflexivity|].
    unfold put_market, put_quote. repeat (constructor; try exact I); assumption.
  - destruct (get_position y a) as [pa|]; [|discriminate]. destruct (get_position y b) as [pb|]; [|discriminate]. destruct (_ && _) in EU; [|discriminate].
    injection EU as <- <-. apply Hkeep; [reflexivity|]. repeat (constructor; try exact I).
Qed.

Lemma run_bls cap capq : (0 < capq)%nat -> forall L y Q n y', inv cap capq y Q n -> Forall op_wf L -> run_ops y L = Some y' -> mk_bls (y_mk y') = mk_bls (y_mk y).
Proof.
  intros Hc. induction L as [|x L IH]; intros y Q n y' HI HW Hr; cbn [run_ops] in Hr.
  - apply some_inj in Hr; subst. reflexivity.
  - inversion HW; subst. destruct (step y x) as [y1|] eqn:S; [|discriminate].
    destruct (inv_step _ _ _ _ _ _ _ Hc HI H1 S) as (Q1 & n1 & HI1). pose proof (step_funding _ _ _ _ _ _ _ Hc HI H1 S) as HS.
    rewrite (IH _ _ _ _ HI1 H2 Hr). unfold same_funding in HS. destruct x; apply HS.
Qed.
Lemma mrun_bls cap capq : (0 < capq)%nat -> forall L m Q n m' soc, inv cap capq (ms_y m) Q n -> Forall mop_wf L -> mrun m L = Some (m', soc) ->
  mk_bls (y_mk (ms_y m')) = mk_bls (y_mk (ms_y m)).
Proof.
  intros Hc. induction L as [|x L IH]; intros m Q n m' soc HI HW Hr; cbn [mrun] in Hr.
  - apply some_inj in Hr. injection Hr as <- <-. reflexivity.
  - inversion HW; subst. destruct (mstep m x) as [[m1 s1]|] eqn:E1; [|discriminate]. destruct (mrun m1 L) as [[m2 s2]|] eqn:E2; [|discriminate].
    apply some_inj in Hr. injection Hr as <- <-. destruct (minv_step _ _ _ _ _ _ _ _ Hc HI H1 E1) as (Q1 & n1 & HI1).
    rewrite (IH _ _ _ _ _ HI1 H2 E2). unfold mstep in E1. destruct (updates m x) as [[[U l] s]|] eqn:EU; [|discriminate].
    destruct (run_ops (ms_y m) U) as [y'|] eqn:Er; [|discriminate]. apply some_inj in E1. injection E1 as <- _. cbn [ms_y].
    eapply run_bls; [exact Hc|exact HI|eapply op_wf_updates; eassumption|exact Er].
Qed.
Lemma mbls_reached cap capq m : mreached cap capq m -> 0 <= mk_bls (y_mk (ms_y m)).
Proof.
  intros (buf & idx & bls & qls & mf & tf & pe & aw & lw & cr & L & soc & Hb & Hc & Hi & Hbl & _ & _ & HW & Hr).
  rewrite (mrun_bls cap capq Hc _ _ _ _ _ _ (inv_fresh cap capq buf idx bls qls mf tf pe aw lw Hb Hc Hi : inv cap capq (ms_y (mfresh cap buf idx bls qls mf tf pe aw lw cr)) _ _) HW Hr).
  exact Hbl.
Qed.

(** over any history without socialized losses, the two indexes move together, and by no
    more than the daily rate allows for the time that passed (plus two units in the last
    place per update) *)
Theorem C19_history : forall cap capq m L m' P R, mreached cap capq m -> 0 <= P -> 0 <= R ->
  Forall mop_wf L -> Forall (funding_within P R) L -> mrun m L = Some (m', []) ->
  let k := y_mk (ms_y m) in let k' := y_mk (ms_y m') in
  ms_last m <= ms_last m' /\
  mk_long_funding k' - mk_long_funding k = mk_short_funding k' - mk_short_funding k /\
  Z.abs (mk_long_funding k' - mk_long_funding k) * (fone * 86400) <=
    P * mk_bls k * R * (ms_last m' - ms_last m) + 2 * funding_updates L * (fone * 86400).
Proof.
  intros cap capq m L m' P R HM HP HR. destruct (minv_reached _ _ _ HM) as (Hc & Q & n & HI). pose proof (mbls_reached _ _ _ HM) as Hb. clear HM. cbv zeta.
  enough (X : Forall mop_wf L -> Forall (funding_within P R) L -> mrun m L = Some (m', []) ->
    ms_last m <= ms_last m' /\ exists d, mk_long_funding (y_mk (ms_y m')) = mk_long_funding (y_mk (ms_y m)) + d /\
      mk_short_funding (y_mk (ms_y m')) = mk_short_funding (y_mk (ms_y m)) + d /\
      Z.abs d * (fone * 86400) <= P * mk_bls (y_mk (ms_y m)) * R * (ms_last m' - ms_last m) + 2 * funding_updates L * (fone * 86400)).
  { intros H1 H2 H3. destruct (X H1 H2 H3) as (X1 & d & X2 & X3 & X4). rewrite X2, X3. split; [exact X1|]. split; [lia|].
    replace (mk_long_funding (y_mk (ms_y m)) + d - mk_long_funding (y_mk (ms_y m))) with d by lia. exact X4. }
  revert m Q n HI Hb. induction L as [|x L IH]; intros m Q n HI Hb HW HF Hr; cbn [mrun] in Hr.
  - apply some_inj in Hr. injection Hr as <-. split; [lia|]. exists 0. unfold funding_updates; cbn [filter length]. split; [lia|]. split; lia.
  - inversion HW as [|? ? W1 W2]; subst. inversion HF as [|? ? F1 F2]; subst.
    destruct (mstep m x) as [[m1 s1]|] eqn:E1; [|discriminate]. destruct (mrun m1 L) as [[m2 s2]|] eqn:E2; [|discriminate].
    apply some_inj in Hr. injection Hr as <- Hs. apply app_eq_nil in Hs as [-> ->].
    destruct (msf _ _ _ _ _ _ _ P R Hc HI Hb HP HR W1 F1 E1) as (A1 & A2 & d & A3 & A4 & A5).
    destruct (minv_step _ _ _ _ _ _ _ _ Hc HI W1 E1) as (Q1 & n1 & HI1).
    destruct (IH m1 Q1 n1 HI1 ltac:(rewrite A2; exact Hb) W2 F2 E2) as (B1 & d' & B2 & B3 & B4). rewrite A2 in B4.
    split; [lia|]. exists (d + d'). split; [lia|]. split; [lia|].
    assert (EN : funding_updates (x :: L) = (if is_funding x then 1 else 0) + funding_updates L).
    { unfold funding_updates. cbn [filter]. destruct (is_funding x); cbn [length]; lia. }
    rewrite EN. pose proof fone_pos as Hf. set (W := P * mk_bls (y_mk (ms_y m)) * R) in *. clearbody W.
    assert (HA : Z.abs (d + d') <= Z.abs d + Z.abs d') by lia.
    apply Z.mul_le_mono_nonneg_r with (p := fone * 86400) in HA; [|lia]. set (C := fone * 86400) in *. clearbody C.
    rewrite Z.mul_add_distr_r in HA. destruct (is_funding x); nia.
Qed.
Print Assumptions C19_history.

Lemma tot_owed mk A : totA (owed mk) A = totA p_quote A - totA (after_funding mk) A.
Proof.
  transitivity (totA (fun p => 1 * p_quote p + (-1) * after_funding mk p) A); [|rewrite tot_lin; lia].
  apply tot_ext. intros p. unfold after_funding. lia.
Qed.
(** a funding update makes longs owe in total exactly what shorts are owed: the total over
    all accounts does not change *)
Theorem C19_zero_sum : forall cap capq m fc oracle now m' soc, mreached cap capq m ->
  mstep m (MFunding fc oracle now) = Some (m', soc) ->
  total (owed (y_mk (ms_y m'))) (ms_y m') = total (owed (y_mk (ms_y m))) (ms_y m).
Proof.
  intros cap capq m fc oracle now m' soc HM H. destruct (minv_reached _ _ _ HM) as (Hc & Q & n & HI).
  unfold mstep, updates in H. destruct (update_funding _ _ _ _ _ _) as [[mk' l']|] eqn:Ef; [|discriminate].
  destruct (run_ops _ _) as [y'|] eqn:Hr; [|discriminate]. apply some_inj in H. injection H as <- <-. cbn [ms_y].
  destruct (update_funding_spec _ _ _ _ _ _ _ _ Ef) as (d & ->).
  cbn [run_ops] in Hr. destruct (step _ _) as [y1|] eqn:S in Hr; [|discriminate]. apply some_inj in Hr; subst y1.
  apply st_market in S as (A1 & _ & F1 & F2 & _). change (total ?g ?y) with (totA g (y_accs y)). rewrite A1, !tot_owed.
  rewrite (tot_shift (y_mk (ms_y m)) (y_mk y') d) by (rewrite ?F1, ?F2; reflexivity).
  assert (totA p_base (y_accs (ms_y m)) = 0) by apply HI. lia.
Qed.
Print Assumptions C19_zero_sum.

(** settling funding takes exactly what is owed, once, and touches nobody else *)
Theorem C19_settle : forall y pk y', step y (OpFunding pk) = Some y' ->
  p_quote (pos_of y' pk) = p_quote (pos_of y pk) - owed (y_mk y) (pos_of y pk) /\
  owed (y_mk y') (pos_of y' pk) = 0 /\ p_base (pos_of y' pk) = p_base (pos_of y pk) /\
  y_mk y' = y_mk y /\ (forall k, k <> pk -> pos_of y' k = pos_of y k).
Proof.
  intros y pk y' H. apply st_funding in H as [M P]. rewrite !P, Z.eqb_refl. cbn [settle_funding p_quote p_base]. rewrite owed_unsettled.
  split; [reflexivity|]. split; [apply owed_settled; rewrite M; reflexivity|]. split; [reflexivity|]. split; [exact M|].
  intros k Hk. rewrite P. destruct (Z.eqb_spec pk k); [congruence|reflexivity].
Qed.
Print Assumptions C19_settle.

(** ** C22 *)
Definition sum_owed (mk : market) (L : list position) : fx := sumZ (map (owed mk) L).
(** [L]: the positions making up the open interest *)
Theorem C22_socialize_loss : forall mk loss (L : list position),
  mk_open_interest mk = sumZ (map (fun p => Z.abs (p_base p)) L) ->
  (0 < loss <-> socialize_loss mk loss = None) /\
  (forall mk' s, socialize_loss mk loss = Some (mk', s) ->
    mk_long_funding mk' - mk_long_funding mk = - (mk_short_funding mk' - mk_short_funding mk) /\
    (mk_open_interest mk = 0 -> s = 0 /\ sum_owed mk' L = sum_owed mk L) /\
    (0 < mk_open_interest mk ->
       let charged := sum_owed mk' L - sum_owed mk L in
       0 <= charged <= - loss /\ - loss - charged < mk_open_interest mk)).
Proof.
  intros mk loss L HO. split.
  - unfold socialize_loss. destruct (Z.ltb_spec 0 loss); split; intros; try lia; try reflexivity; discriminate.
  - intros mk' s H. apply socialize_spec in H as (H1 & -> & H2 & H3). cbn [with_funding mk_long_funding mk_short_funding].
    assert (HS : sum_owed (with_funding mk (mk_long_funding mk - s) (mk_short_funding mk + s)) L = sum_owed mk L - s * mk_open_interest mk).
    { rewrite HO. unfold sum_owed, sumZ. clear. induction L as [|p L IH]; cbn [map fold_right]; [lia|]. rewrite IH.
      unfold owed; cbn [with_funding mk_long_funding mk_short_funding]. destruct (Z.ltb_spec (p_base p) 0); lia. }
    rewrite HS. split; [lia|]. split.
    + intros Z0. rewrite (H2 Z0). lia.
    + intros Hp. specialize (H3 Hp). cbv zeta. pose proof (Z.div_mod (- loss) (mk_open_interest mk) ltac:(lia)). pose proof (Z.mod_pos_bound (- loss) _ Hp).
      assert (0 <= - loss / mk_open_interest mk) by (apply Z.div_pos; lia). subst s. nia.
Qed.
Print Assumptions C22_socialize_loss.

Lemma ginv_fresh cap buf idx bls qls mf tf pe aw lw : 0 <= bls -> 0 <= qls -> f32_rate mf ->
  ginv (fresh cap buf idx bls qls mf tf pe aw lw) [] 0.
Proof. intros Hb Hq Hr. constructor; cbn; auto. intros f []. Qed.

Lemma soc_pos cap capq : (0 < capq)%nat -> forall L m0 Q0 n0 m soc, inv cap capq (ms_y m0) Q0 n0 -> Forall mop_wf L -> mrun m0 L = Some (m, soc) ->
  Forall (fun x => 0 < fst x /\ 0 <= snd x) soc.
Proof.
  intros Hc. induction L as [|x L IH]; intros m0 Q0 n0 m soc HI0 HW Hr; cbn [mrun] in Hr.
    + apply some_inj in Hr. injection Hr as _ <-. constructor.
    + inversion HW as [|? ? W1 W2]; subst. destruct (mstep m0 x) as [[m1 s1]|] eqn:E1; [|discriminate]. destruct (mrun m1 L) as [[m2 s2]|] eqn:E2; [|discriminate].
      apply some_inj in Hr. injection Hr as <- <-. destruct (minv_step _ _ _ _ _ _ _ _ Hc HI0 W1 E1) as (Q1 & n1 & HI1).
      apply Forall_app. split; [|apply (IH _ _ _ _ _ HI1 W2 E2)].
      assert (Hoi : 0 <= mk_open_interest (y_mk (ms_y m0))).
      { replace (mk_open_interest (y_mk (ms_y m0))) with (totA (fun p => Z.abs (p_base p)) (y_accs (ms_y m0))) by (symmetry; apply HI0).
        unfold totA, sumZ. clear. induction (y_accs (ms_y m0)) as [|z A IH]; cbn [map fold_right]; lia. }
      unfold mstep in E1. destruct (updates m0 x) as [[[U l] s]|] eqn:EU; [|discriminate]. destruct (run_ops _ U); [|discriminate].
      apply some_inj in E1. injection E1 as _ <-. clear - EU Hoi. unfold updates in EU. destruct x;
        repeat match type of EU with context[match ?t with _ => _ end] => destruct t eqn:?; try discriminate end;
        apply some_inj in EU; apply (f_equal snd) in EU; cbn [snd] in EU; subst s; try (constructor; fail).
      constructor; [|constructor]. cbn [fst snd]. split; [apply Z.ltb_lt; assumption|exact Hoi].
Qed.
(** over every history of a market (except forced closing), the quote of all positions after
    funding plus the accrued fees is exactly what the rounding of socialized losses left
    over, and the whole loss where there was no open interest; it never becomes negative *)
Theorem C22_quote_conserved : forall cap capq buf idx bls qls maker taker penalty aw lw created L m soc,
  length buf = capq -> (0 < capq)%nat -> idx <> FREE -> 0 <= bls -> 0 <= qls -> f32_rate maker -> Forall mop_wf L ->
  forallb (fun x => negb (is_force_close x)) L = true ->
  mrun (mfresh cap buf idx bls qls maker taker penalty aw lw created) L = Some (m, soc) ->
  exists Q, q_iter (y_q (ms_y m)) = Some Q /\ quote_sum (ms_y m) Q = sumZ (map residue soc) /\
    Forall (fun x => 0 < fst x /\ 0 <= snd x) soc.
Proof.
  intros cap capq buf idx bls qls mf tf pe aw lw cr L m soc Hb Hc Hi Hbl Hq Hf HW HF Hr.
  destruct (grun cap capq Hc L (mfresh cap buf idx bls qls mf tf pe aw lw cr) [] 0 0 m soc) as (Q & n & HI & HG); auto.
  - apply inv_fresh; assumption.
  - apply ginv_fresh; assumption.
  - exists Q. split; [exact (q_iter_ok _ _ _ (iv_q _ _ _ _ _ HI))|]. split; [exact (g_sum _ _ _ HG)|].
    eapply soc_pos; [exact Hc| |exact HW|exact Hr]. apply inv_fresh; assumption.
Qed.
Print Assumptions C22_quote_conserved.

(** forced closing: nothing is lost if both positions have their funding settled *)
Theorem C22_force_close_settled : forall m a b price m' soc Q,
  mstep m (MForceClose a b price) = Some (m', soc) ->
  p_long_settled (pos_of (ms_y m) a) = mk_long_funding (y_mk (ms_y m)) ->
  p_short_settled (pos_of (ms_y m) b) = mk_short_funding (y_mk (ms_y m)) ->
  quote_sum (ms_y m') Q = quote_sum (ms_y m) Q /\ y_q (ms_y m') = y_q (ms_y m) /\ soc = [].
Proof.
  intros m a b price m' soc Q H S1 S2. unfold mstep, updates in H.
  destruct (get_position (ms_y m) a) as [pa|] eqn:Ga; [|discriminate]. destruct (get_position (ms_y m) b) as [pb|] eqn:Gb; [|discriminate].
  destruct ((0 <? p_base pa) && (p_base pb <? 0)) eqn:Eb; [|discriminate]. apply andb_true_iff in Eb as [B1 B2]. apply Z.ltb_lt in B1, B2.
  set (t := Z.max _ 0) in H. assert (Ht : 0 <= t <= p_base pa /\ t <= - p_base pb) by (unfold t; lia). clearbody t.
  set (q := fmul _ _) in H. clearbody q. destruct (run_ops _ _) as [y'|] eqn:Hr; [|discriminate]. apply some_inj in H. injection H as <- <-. cbn [ms_y].
  cbn [run_ops] in Hr. destruct (step _ _) as [y1|] eqn:S in Hr; [|discriminate]. apply some_inj in Hr; subst y1.
  apply get_pos in Ga, Gb. rewrite Ga in S1. rewrite Gb in S2.
  unfold step in S. destruct (Z.eqb_spec a b) as [|Hne]; [discriminate|].
  destruct (aget (y_accs (ms_y m)) a) as [x|] eqn:Ea; [|discriminate]. destruct (aget (y_accs (ms_y m)) b) as [z|] eqn:Eb; [|discriminate].
  destruct (a_pos x) as [p|] eqn:Ep; [|discriminate]. destruct (a_pos z) as [p'|] eqn:Ep'; [|discriminate].
  cbn [record_trade] in S. apply some_inj in S; subst y'. split; [|split; reflexivity].
  rewrite (pos_of_get _ _ _ Ea), (posn_some _ _ Ep) in Ga. rewrite (pos_of_get _ _ _ Eb), (posn_some _ _ Ep') in Gb. subst pa pb.
  unfold quote_sum. cbn [y_mk with_oi mk_fees_accrued mk_qls]. change (total ?g ?y) with (totA g (y_accs y)). cbn [y_accs].
  rewrite (tot_after_mk (y_mk (ms_y m))) by reflexivity. rewrite !tot_aset by apply after_pos0. rewrite pos_in_aset. destruct (Z.eqb_spec a b); [contradiction|].
  rewrite (pos_in_get _ _ _ Ea), (pos_in_get _ _ _ Eb), (posn_some _ _ Ep), (posn_some _ _ Ep'). cbn [posn set_pos a_pos].
  assert (X1 : after_funding (y_mk (ms_y m)) p = p_quote p).
  { unfold after_funding, owed. destruct (Z.ltb_spec (p_base p) 0); [lia|]. rewrite S1. lia. }
  assert (X2 : after_funding (y_mk (ms_y m)) p' = p_quote p').
  { unfold after_funding, owed. destruct (Z.ltb_spec (p_base p') 0); [|lia]. rewrite S2. lia. }
  rewrite X1, X2. unfold after_funding at 2 3, owed. cbn [p_base p_quote p_long_settled p_short_settled].
  destruct (Z.ltb_spec (p_base p + - t) 0); [lia|]. rewrite S1. destruct (Z.ltb_spec (p_base p' + - - t) 0); [rewrite S2; lia|].
  replace (p_base p' + - - t) with 0 by lia. lia.
Qed.
Print Assumptions C22_force_close_settled.

Definition ex_fc : fcfg := mkFC (- (fone / 20)) (fone / 20) 1.
Definition ex_mfresh : mstate := mfresh 16 (repeat (EOut (mkOut Bid 0 0 0 0 0 0)) 8) 3 1 1 0 0 0 (fone / 2) (3 * fone / 2) 1000.
(** accounts 1 and 2 trade 3 lots at 20; a bid rests on the book *)
Definition ex_open : list mop :=
  [MOp (OpCreate 1 4); MOp (OpCreate 2 4); MOp (OpCreate 3 4); MOp (ex_place 1 Bid 20 3); MOp (ex_place 2 Ask 20 3); MOp OpConsume; MOp (ex_place 3 Bid 19 1)].
(** an hour of funding; account 1 settles its funding; 1 and 2 are closed against each other *)
Definition ex_close : list mop :=
  ex_open ++ [MFunding ex_fc (of_int 20) 4600; MSettleFees 1 ex_c lim0 (of_int 20) 5; MForceClose 1 2 (of_int 20)].

Lemma ex_mwf : Forall mop_wf ex_close.
Proof. unfold ex_close, ex_open. cbn [app]. repeat (apply Forall_cons; [first [apply ex_place_wf; lia | exact I | cbn; lia]|]). apply Forall_nil. Qed.
(** perp_force_close_position does not settle funding: what account 2 was owed is gone *)
Theorem C22_force_close_refuted : exists L m, Forall mop_wf L /\ mrun ex_mfresh L = Some (m, []) /\
  q_iter (y_q (ms_y m)) = Some [] /\ quote_sum (ms_y m) [] < 0 /\ total p_quote (ms_y m) = quote_sum (ms_y m) [] /\
  mk_open_interest (y_mk (ms_y m)) = 0.
Proof.
  exists ex_close. destruct (mrun ex_mfresh ex_close) as [[m soc]|] eqn:E; [|vm_compute in E; discriminate]. vm_compute in E. apply some_inj in E. injection E as <- <-.
  eexists. split; [exact ex_mwf|]. split; [reflexivity|]. split; [vm_compute; reflexivity|]. split; [vm_compute; reflexivity|]. split; vm_compute; reflexivity.
Qed.
Print Assumptions C22_force_close_refuted.

(** account 1's loss of 10 is socialized over 6 lots, in which 4 units in the last place are lost *)
Definition ex_bankrupt : list mop :=
  ex_open ++ [MFunding ex_fc (of_int 20) 4600; MLiqNegative 3 1 ex_c lim0 fone 0 0 (of_int 10) fone fone (fone / 10) 0 5000].
Example C22_example : exists m, mrun ex_mfresh ex_bankrupt = Some (m, [(of_int 10, 6)]) /\ Forall mop_wf ex_bankrupt /\
  forallb (fun x => negb (is_force_close x)) ex_bankrupt = true /\ f32_rate 0 /\
  quote_sum (ms_y m) [] = 4 /\ p_quote (pos_of (ms_y m) 1) = of_int (- 60 + 10) - 35184372088827.
Proof.
  destruct (mrun ex_mfresh ex_bankrupt) as [[m soc]|] eqn:E; [|vm_compute in E; discriminate]. vm_compute in E. apply some_inj in E. injection E as <- <-.
  eexists. split; [reflexivity|]. split; [unfold ex_bankrupt, ex_open; cbn [app]; repeat (apply Forall_cons; [first [apply ex_place_wf; lia | exact I | cbn; lia]|]); apply Forall_nil|].
  split; [reflexivity|]. split; [exists 0, 0; repeat split; lia|]. split; vm_compute; reflexivity.
Qed.
(** one hour at the maximum rate of 5% per day on a price of 20 *)
Example C19_example : exists m m', mreached 16 8 m /\ mrun m [MFunding ex_fc (of_int 20) 4600] = Some (m', []) /\
  ms_last m = 1000 /\ ms_last m' = 4600 /\ Forall (funding_within (of_int 20) (fone / 20)) [MFunding ex_fc (of_int 20) 4600] /\
  mk_long_funding (y_mk (ms_y m')) = 11728124029609 /\ mk_short_funding (y_mk (ms_y m')) = 11728124029609 /\
  owed (y_mk (ms_y m')) (pos_of (ms_y m') 1) = 35184372088827 /\ owed (y_mk (ms_y m')) (pos_of (ms_y m') 2) = - 35184372088827.
Proof.
  destruct (mrun ex_mfresh ex_open) as [[m soc]|] eqn:E; [|vm_compute in E; discriminate].
  assert (HM : mreached 16 8 m).
  { exists (repeat (EOut (mkOut Bid 0 0 0 0 0 0)) 8), 3, 1, 1, 0, 0, 0, (fone / 2), (3 * fone / 2), 1000, ex_open, soc.
    split; [reflexivity|]. split; [lia|]. split; [discriminate|]. split; [lia|]. split; [lia|]. split; [exists 0, 0; repeat split; lia|].
    split; [|exact E]. unfold ex_open. repeat (apply Forall_cons; [first [apply ex_place_wf; lia | exact I]|]). apply Forall_nil. }
  vm_compute in E. apply some_inj in E. injection E as <- <-. eexists _, _. split; [exact HM|]. split; [vm_compute; reflexivity|].
  split; [reflexivity|]. split; [reflexivity|]. split; [apply Forall_cons; [unfold funding_within; split; [|split]; apply Z.leb_le; vm_compute; reflexivity|apply Forall_nil]|].
  split; [vm_compute; reflexivity|]. split; [vm_compute; reflexivity|]. split; vm_compute; reflexivity.
Qed.
