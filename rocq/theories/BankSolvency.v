(** Claims against holdings of a token with one bank. *)
From Coq Require Import List ZArith Lia Bool.
From Verif Require Import OrderTree Keys Fixed PerpTypes Interest InterestSpec InterestFacts Bank BankFacts BankSystem BankSpec BankInv.
Import ListNotations.
Open Scope Z_scope.

Lemma worth_split di bi l : sum_pos (worth di bi) l = di * sum_pos P l - bi * sum_pos N l.
Proof.
  induction l as [|e l IH]; cbn [sum_pos fold_right]; [lia|].
  fold (sum_pos (worth di bi) l) (sum_pos P l) (sum_pos N l). rewrite IH.
  unfold worth, P, N. destruct (Z.ltb_spec (t_ix (snd e)) 0).
  - rewrite Z.max_r, Z.max_l by lia. lia.
  - rewrite Z.max_l, Z.max_r by lia. lia.
Qed.
Lemma pv_worth b ix : pv b ix = worth (b_di b) (b_bi b) ix.
Proof. unfold pv, worth. destruct (Z.ltb_spec 0 ix), (Z.ltb_spec ix 0); try lia. assert (ix = 0) by lia. subst. lia. Qed.

Lemma rate_le_top c u v : ipar_valid c = true -> interest_rate c u = Some v -> v <= top_rate c.
Proof.
  intros Hv H. unfold interest_rate in H. destruct (curve c u) as [w|] eqn:E; [|discriminate].
  pose proof fone_pos as Hf.
  assert (Hw : 0 <= clamp01 u <= fone) by (unfold clamp01; lia).
  assert (Hc : curve c (clamp01 u) = Some w).
  { unfold curve in *. replace (clamp01 (clamp01 u)) with (clamp01 u); [exact E|]. unfold clamp01. lia. }
  destruct (curve_facts c _ w Hv Hw Hc) as (C1 & C2 & C3). unfold between in *.
  assert (L : w <= Z.max (Z.max (i_zero c) (i_rate0 c)) (Z.max (i_rate1 c) (i_max c))).
  { destruct (Z_le_gt_dec (clamp01 u) (i_util0 c)); [lia|]. destruct (Z_le_gt_dec (clamp01 u) (i_util1 c)); lia. }
  apply some_inj in H. subst v. unfold top_rate. pose proof (valid_iff c Hv) as (_ & _ & _ & _ & _ & _ & _ & _ & V8).
  cbn zeta. destruct (Z.eqb_spec (i_scale c) 0); [exact L|]. apply fmul_mono_l; lia.
Qed.

Definition adds_bank (o : top) : bool := match o with TAddBank _ => true | _ => false end.

Lemma compute_index_rate c di bi dep bor t r : compute_index c di bi dep bor t = Some r ->
  exists u, interest_rate c u = Some (r_borrow r).
Proof.
  unfold compute_index. cbn zeta. set (u := utilization _ _).
  destruct (interest_rate c u) as [v|] eqn:E; [|discriminate]. intros H. apply some_inj in H. subst r. exists u. exact E.
Qed.

Lemma claims_eq di bi s : claims di bi s = di * lent s - bi * borrowed s.
Proof. rewrite lent_P, borrowed_N, <- worth_split. reflexivity. Qed.

Theorem shortfall_step s b o s' : tinv s -> ts_banks s = [b] -> adds_bank o = false -> step_covered s o ->
  tstep s o = Some s' ->
  exists b', ts_banks s' = [b'] /\ shortfall b' s' <= shortfall b s + rounding s o.
Proof.
  intros I Hb Ha Hc H. pose proof I as [I1 I2 I3]. pose proof fone_pos as Hf.
  unfold rounding. rewrite Hb in *. cbn [sum_z fold_right] in I1, I2. rewrite Z.add_0_r in I1, I2.
  rewrite <- lent_P in I1. rewrite <- borrowed_N in I2.
  assert (G : good_bank b) by (apply I3; left; reflexivity).
  destruct o as [k a op close|a|a n|now|e reset|k n|k|k a loss now close|k vault|k n]; cbn [tstep] in H; rewrite Hb in H.
  - destruct k as [|k]; cbn [nth_error] in H; [|destruct k; discriminate].
    destruct (pos_get (ts_pos s) a) as [p|] eqn:Ep; [|discriminate].
    destruct (bank_op b p op) as [[[[b1 p1] a1] paid]|] eqn:Eo; [|discriminate].
    destruct (put_back _ _ _ _ _) as [l|] eqn:El; [|discriminate]. injection H as <-.
    apply bank_op_spec in Eo; [|apply G..]. destruct Eo as (M & A & _ & U).
    exists b1. split; [reflexivity|]. unfold shortfall, claims. cbn [ts_cash ts_pos].
    destruct M as [_ _ _ M4 M5 _ _ _ _ _ _ _ _ _ _ M16]. rewrite M4, M5, M16.
    fold (sum_pos (worth (b_di b) (b_bi b)) l) (sum_pos (worth (b_di b) (b_bi b)) (ts_pos s)).
    assert (W0 : worth (b_di b) (b_bi b) 0 = 0) by reflexivity.
    rewrite (put_back_sum (worth (b_di b) (b_bi b)) _ _ _ _ _ _ _ W0 A Ep El). rewrite !pv_worth in U. lia.
  - destruct (pos_get (ts_pos s) a); [discriminate|]. injection H as <-. exists b. split; [reflexivity|].
    unfold shortfall, claims, worth. cbn. lia.
  - destruct (pos_get (ts_pos s) a) as [p|] eqn:Ep; [|discriminate]. injection H as <-. exists b. split; [reflexivity|].
    unfold shortfall, claims. cbn [ts_pos ts_cash].
    fold (sum_pos (worth (b_di b) (b_bi b)) (ts_pos s)) (sum_pos (worth (b_di b) (b_bi b)) (pos_set (ts_pos s) a (mkTpos (t_ix p) n))).
    rewrite (sum_pos_set _ _ _ _ _ Ep). cbn [t_ix]. lia.
  - destruct (update_index _ now) as [banks|] eqn:E; [|discriminate]. injection H as <-.
    apply update_index_inv in E as (b0 & rest & r & Eb & Hn & Er & ->). injection Eb as <- <-.
    cbn [sum_z fold_right] in Er. rewrite !Z.add_0_r in Er. rewrite I1, I2 in Er.
    destruct (compute_index_rate _ _ _ _ _ _ _ Er) as [u Eu]. apply rate_le_top in Eu; [|apply G].
    assert (L0 : 0 <= lent s) by (rewrite lent_P; apply sum_pos_nonneg, P_nonneg).
    assert (B0 : 0 <= borrowed s) by (rewrite borrowed_N; apply sum_pos_nonneg, N_nonneg).
    destruct G as ([G1 G2] & G3 & G4). remember (Z.min (now - b_upd b) 3600) as t eqn:Et.
    assert (T : 0 <= t <= 3600) by lia.
    apply compute_index_facts in Er; [|assumption..|lia].
    destruct Er as (R1 & R2 & R3 & R4 & R5 & R6).
    eexists. split; [reflexivity|]. unfold shortfall. rewrite !claims_eq.
    cbn [b_di b_bi b_dust b_fees b_fw set_index ts_cash]. 
    change (lent (mkTstate _ (ts_pos s) (ts_cash s))) with (lent s).
    change (borrowed (mkTstate _ (ts_pos s) (ts_cash s))) with (borrowed s).
    assert (K : ((r_di r - b_di b) * lent s + r_fees r * fone) * YEAR <=
                ((r_bi r - b_bi b) * borrowed s + 2 * borrowed s + r_borrow r) * YEAR).
    { assert (t <= YEAR) by (unfold YEAR; lia). nia. }
    apply Z.mul_le_mono_pos_r in K; [|reflexivity]. lia.
  - destruct (_ && _); cbn [guard] in H; [|discriminate]. injection H as <-. eexists. split; [reflexivity|].
    unfold shortfall, claims. cbn. lia.
  - destruct k as [|k]; cbn [nth_error] in H; [|destruct k; discriminate]. injection H as <-. eexists. split; [reflexivity|].
    unfold shortfall, claims. cbn. lia.
  - discriminate.
  - destruct (pos_get (ts_pos s) a) as [p|] eqn:Ep; [|discriminate].
    destruct (socialize _ k p loss now) as [[[banks p1] a1]|] eqn:E; [|discriminate].
    destruct (put_back _ _ _ _ _) as [l|] eqn:El; [|discriminate]. injection H as <-.
    apply socialize_inv in E as (Hl & bk & Eb & Hd & Hz & E).
    destruct k as [|k]; cbn [nth_error] in Eb; [|destruct k; discriminate]. injection Eb as <-.
    cbn [step_covered] in Hc. specialize (Hc b ltac:(rewrite Hb; left; reflexivity)).
    cbn [sum_z fold_right] in E, Hd. rewrite Z.add_0_r, I1 in E, Hd.
    assert (L0 : 0 <= lent s) by (rewrite lent_P; apply sum_pos_nonneg, P_nonneg).
    pose proof (soc_index_pos loss (lent s) (b_di b) Hl L0 Hd Hc) as Hq.
    pose proof (fdiv_pos_bounds loss (lent s) ltac:(lia) ltac:(lia)) as (_ & Q1 & Q2).
    pose proof (fdiv_nonneg loss (lent s) ltac:(lia) ltac:(lia)) as Q0.
    set (q := fdiv loss (lent s)) in *. set (ndi := b_di b - q) in *.
    cbn [credit_banks] in E. set (b0 := set_index b ndi (b_bi b) (b_fees b) (b_upd b)) in *.
    assert (G0 : good_bank b0) by (destruct G as ([? ?] & ? & ?); repeat split; assumption).
    assert (W0 : worth ndi (b_bi b) 0 = 0) by reflexivity.
    assert (Cl : forall l, sum_pos (worth ndi (b_bi b)) l = sum_pos (worth (b_di b) (b_bi b)) l - q * sum_pos P l).
    { intros l0. rewrite !worth_split. unfold ndi. ring. }
    destruct (0 <? Z.min loss (native_borrows b0)) eqn:Em.
    + destruct (deposit_with_dusting b0 p _ now) as [[[b1 p2] a2]|] eqn:E1; [|discriminate].
      set (x := Z.min loss (native_borrows b0)) in *.
      assert (Eo : bank_op b0 p (BDeposit x true now) = Some (b1, p2, a2, x)) by (cbn [bank_op]; rewrite E1; reflexivity).
      apply bank_op_spec in Eo; [|apply G0..]. destruct Eo as (M & A & _ & U).
      assert (E2 : banks = [b1] /\ p1 = p2 /\ a1 = a2).
      { destruct (loss - x <=? 0); injection E as <- <- <-; auto. }
      destruct E2 as (-> & -> & ->). exists b1. split; [reflexivity|]. unfold shortfall, claims. cbn [ts_cash ts_pos].
      destruct M as [_ _ _ M4 M5 _ _ _ _ _ _ _ _ _ _ M16]. cbn [b_di b_bi b_fw b0 set_index] in M4, M5, M16. rewrite M4, M5, M16.
      fold (sum_pos (worth ndi (b_bi b)) l) (sum_pos (worth (b_di b) (b_bi b)) (ts_pos s)).
      rewrite (put_back_sum (worth ndi (b_bi b)) _ _ _ _ _ _ _ W0 A Ep El), Cl, <- lent_P.
      rewrite !pv_worth in U. cbn [b_di b_bi b_dust b_fees b0 set_index] in U.
      assert (x <= loss) by (unfold x; lia). assert (x * fone <= loss * fone) by nia. unfold ndi in *. lia.
    + injection E as <- <- <-. exists b0. split; [reflexivity|]. unfold shortfall, claims. cbn [ts_cash ts_pos].
      cbn [b_di b_bi b_fw b_dust b_fees b0 set_index].
      fold (sum_pos (worth ndi (b_bi b)) l) (sum_pos (worth (b_di b) (b_bi b)) (ts_pos s)).
      assert (A : true = false -> t_ix p = 0) by discriminate.
      rewrite (put_back_sum (worth ndi (b_bi b)) _ _ _ _ _ _ _ W0 A Ep El), Cl, <- lent_P.
      destruct G as ([? ?] & _). nia.
  - destruct k as [|k]; cbn [nth_error] in H; [|destruct k; discriminate].
    destruct (0 <=? vault); cbn [guard] in H; [|discriminate].
    destruct (withdraw_fees b vault) as [[b1 am]|] eqn:Ew; [|discriminate]. injection H as <-.
    unfold withdraw_fees in Ew. destruct (0 <=? _) in Ew; cbn [guard] in Ew; [|discriminate]. injection Ew as <- <-.
    eexists. split; [reflexivity|]. unfold shortfall, claims. cbn [ts_pos ts_cash b_di b_bi b_dust b_fees b_fw set_fw].
    unfold of_int. lia.
  - destruct k as [|k]; cbn [nth_error] in H; [|destruct k; discriminate].
    destruct (0 <=? n); cbn [guard] in H; [|discriminate]. injection H as <-.
    eexists. split; [reflexivity|]. unfold shortfall, claims. cbn [ts_pos ts_cash b_di b_bi b_dust b_fees b_fw set_totals].
    lia.
Qed.

Theorem shortfall_run ops : forall s b s', tinv s -> ts_banks s = [b] -> (forall o, In o ops -> adds_bank o = false) ->
  losses_covered s ops -> trun s ops = Some s' ->
  exists b', ts_banks s' = [b'] /\ shortfall b' s' <= shortfall b s + roundings s ops.
Proof.
  induction ops as [|o ops IH]; intros s b s' I Hb Ha Hc H; cbn [trun roundings losses_covered] in *.
  - injection H as <-. exists b. split; [exact Hb|lia].
  - destruct (tstep s o) as [s1|] eqn:E; [|discriminate]. destruct Hc as [Hc1 Hc2].
    destruct (shortfall_step s b o s1 I Hb (Ha o (or_introl eq_refl)) Hc1 E) as (b1 & Hb1 & L1).
    pose proof (tinv_step s o s1 I Hc1 E) as I'.
    destruct (IH s1 b1 s' I' Hb1 (fun o h => Ha o (or_intror h)) Hc2 H) as (b' & Hb' & L2).
    exists b'. split; [exact Hb'|]. lia.
Qed.
