(** Quote conservation per instruction: lemmas behind C19 and C22. *)
From Coq Require Import List ZArith Lia Bool Arith.
From Verif Require Import OrderTree Keys Fixed BookSide EventQueue PerpTypes Book
  BookPlace BookSpec BookFacts PerpSystem PerpSpec PerpLots PerpInv PerpFeeSpec PerpFees
  SettleLimit SettleSpec SettleFacts PropSettle PerpMoney PerpMoneySpec PerpClaims.
Import ListNotations.
Open Scope Z_scope.

Lemma st_funding y pk y' : step y (OpFunding pk) = Some y' ->
  y_mk y' = y_mk y /\ forall k, pos_of y' k = if pk =? k then settle_funding (pos_of y pk) (y_mk y) else pos_of y k.
Proof.
  unfold step. destruct (aget (y_accs y) pk) as [a|] eqn:E; [|discriminate]. destruct (a_pos a) as [p|] eqn:Ep; [|discriminate].
  intros H. apply some_inj in H; subst y'. split; [reflexivity|]. intros k. unfold pos_of, with_acc; cbn [y_accs]. rewrite pos_in_aset.
  rewrite (pos_in_get _ _ _ E), (posn_some _ _ Ep). reflexivity.
Qed.
Lemma st_quote y pk q os y' : step y (OpQuote pk q os) = Some y' ->
  y_mk y' = y_mk y /\ forall k, pos_of y' k = if pk =? k then set_quote (pos_of y pk) q os else pos_of y k.
Proof.
  unfold step. destruct (aget (y_accs y) pk) as [a|] eqn:E; [|discriminate]. destruct (a_pos a) as [p|] eqn:Ep; [|discriminate].
  intros H. apply some_inj in H; subst y'. split; [reflexivity|]. intros k. unfold pos_of, with_acc; cbn [y_accs]. rewrite pos_in_aset.
  rewrite (pos_in_get _ _ _ E), (posn_some _ _ Ep). reflexivity.
Qed.
Lemma st_activate y pk y' : step y (OpActivate pk) = Some y' ->
  y_mk y' = y_mk y /\ forall k, pos_of y' k = pos_of y k.
Proof.
  unfold step. destruct (aget (y_accs y) pk) as [a|] eqn:E; [|discriminate].
  intros H. apply some_inj in H; subst y'. split; [reflexivity|]. intros k. unfold pos_of, with_acc; cbn [y_accs]. rewrite pos_in_aset.
  rewrite posn_ensure. destruct (Z.eqb_spec pk k) as [<-|]; [|reflexivity]. rewrite (pos_in_get _ _ _ E). reflexivity.
Qed.
Lemma st_market y lf sf mf tf pe fe aw lw y' : step y (OpMarket lf sf mf tf pe fe aw lw) = Some y' ->
  y_accs y' = y_accs y /\ (forall k, pos_of y' k = pos_of y k) /\
  mk_long_funding (y_mk y') = lf /\ mk_short_funding (y_mk y') = sf /\ mk_fees_accrued (y_mk y') = fe /\
  mk_open_interest (y_mk y') = mk_open_interest (y_mk y) /\ mk_bls (y_mk y') = mk_bls (y_mk y).
Proof. unfold step. intros H. apply some_inj in H; subst y'. repeat apply conj; reflexivity. Qed.
Lemma st_trade y a b base q1 q2 y' : step y (OpTrade a b base q1 q2) = Some y' ->
  mk_long_funding (y_mk y') = mk_long_funding (y_mk y) /\ mk_short_funding (y_mk y') = mk_short_funding (y_mk y) /\
  mk_fees_accrued (y_mk y') = mk_fees_accrued (y_mk y) /\ mk_bls (y_mk y') = mk_bls (y_mk y) /\ mk_maker_fee (y_mk y') = mk_maker_fee (y_mk y) /\
  a <> b /\ (forall k, k <> a -> k <> b -> pos_of y' k = pos_of y k) /\
  p_quote (pos_of y' a) = p_quote (pos_of y a) + q1 /\ p_quote (pos_of y' b) = p_quote (pos_of y b) + q2.
Proof.
  unfold step. destruct (Z.eqb_spec a b) as [|Hne]; [discriminate|].
  destruct (aget (y_accs y) a) as [x|] eqn:Ea; [|discriminate]. destruct (aget (y_accs y) b) as [z|] eqn:Eb; [|discriminate].
  destruct (a_pos x) as [p|] eqn:Ep; [|discriminate]. destruct (a_pos z) as [p'|] eqn:Ep'; [|discriminate].
  cbn [record_trade]. intros H. apply some_inj in H; subst y'. cbn [y_mk with_oi mk_long_funding mk_short_funding mk_fees_accrued mk_bls mk_maker_fee].
  do 5 (split; [reflexivity|]). split; [exact Hne|]. unfold pos_of; cbn [y_accs]. split; [|split].
  - intros k K1 K2. rewrite !pos_in_aset. destruct (Z.eqb_spec b k); [congruence|]. destruct (Z.eqb_spec a k); [congruence|reflexivity].
  - rewrite !pos_in_aset. destruct (Z.eqb_spec b a); [congruence|]. rewrite Z.eqb_refl, (pos_in_get _ _ _ Ea), (posn_some _ _ Ep). reflexivity.
  - rewrite !pos_in_aset, Z.eqb_refl, (pos_in_get _ _ _ Eb), (posn_some _ _ Ep'). reflexivity.
Qed.
Lemma get_pos y pk p : get_position y pk = Some p -> pos_of y pk = p.
Proof. unfold get_position, pos_of, pos_in. destruct (aget _ _) as [a|]; [|discriminate]. apply posn_some. Qed.
Lemma new_pos y pk p : get_or_new y pk = Some p -> pos_of y pk = p.
Proof. unfold get_or_new, pos_of, pos_in. destruct (aget _ _) as [a|]; [|discriminate]. intros E. apply posn_some in E. rewrite posn_ensure in E. exact E. Qed.

(** the sum of the gains of a list of updates *)
Fixpoint gains (y : sys) (L : list op) : Z :=
  match L with
  | [] => 0
  | x :: L' => match step y x with Some y' => gain y x y' + gains y' L' | None => 0 end
  end.
Fixpoint all_ok (y : sys) (L : list op) : Prop :=
  match L with
  | [] => True
  | x :: L' => op_ok y x /\ op_wf x /\ match step y x with Some y' => all_ok y' L' | None => True end
  end.
Lemma ginv_run cap capq : (0 < capq)%nat -> forall L y Q n E y', inv cap capq y Q n -> ginv y Q E -> all_ok y L ->
  run_ops y L = Some y' -> exists Q' n', inv cap capq y' Q' n' /\ ginv y' Q' (E + gains y L).
Proof.
  intros Hcap. induction L as [|x L IH]; intros y Q n E y' HI HG HO Hr; cbn [run_ops gains all_ok] in *.
  - apply some_inj in Hr; subst y'. rewrite Z.add_0_r. eauto.
  - destruct HO as (HO & HW & HN). destruct (step y x) as [y1|] eqn:ES; [|discriminate].
    destruct (ginv_step _ _ _ _ _ _ _ _ Hcap HI HG HW HO ES) as (Q1 & n1 & HI1 & HG1).
    destruct (IH _ _ _ _ _ HI1 HG1 HN Hr) as (Q2 & n2 & HI2 & HG2). exists Q2, n2. split; [exact HI2|]. rewrite Z.add_assoc. exact HG2.
Qed.

(** ** the amounts of each instruction *)
Lemma fdiv_share r oi : 0 <= r -> 0 < oi -> fdiv r (of_int oi) = r / oi.
Proof.
  intros Hr Ho. unfold fdiv, of_int. pose proof fone_pos. rewrite Z.quot_mul_cancel_r by lia. apply Z.quot_div_nonneg; lia.
Qed.
Lemma socialize_spec mk loss mk' s : socialize_loss mk loss = Some (mk', s) ->
  loss <= 0 /\ mk' = with_funding mk (mk_long_funding mk - s) (mk_short_funding mk + s) /\
  (mk_open_interest mk = 0 -> s = 0) /\ (0 < mk_open_interest mk -> s = - (- loss / mk_open_interest mk)).
Proof.
  unfold socialize_loss. destruct (Z.ltb_spec 0 loss); [discriminate|]. intros E. apply some_inj in E. injection E as <- <-.
  split; [lia|]. split; [reflexivity|]. destruct (Z.eqb_spec (mk_open_interest mk) 0); split; intros; try lia.
  rewrite <- fdiv_share by lia. rewrite <- fdiv_opp_l. f_equal. lia.
Qed.

Record ln_facts (mk : market) (pe po : position) (r : liqneg) : Prop := mkLNF {
  lf_nonneg : 0 <= ln_settled r /\ 0 <= ln_soc r;
  lf_liqee : p_quote (ln_liqee r) = p_quote pe - owed mk pe + ln_settled r + ln_ins_liab r + ln_soc r;
  lf_liqor : p_quote (ln_liqor r) = p_quote po - owed mk po - ln_settled r - ln_ins_liab r;
  lf_none : ln_soc r = 0 -> ln_market r = mk;
  lf_soc : 0 < ln_soc r -> exists s, socialize_loss mk (- ln_soc r) = Some (ln_market r, s) }.

Lemma ln_amounts mk c pe le po price ms ml fh sp ip lf cover now r : 0 <= cover ->
  liq_negative mk c pe le po price ms ml fh sp ip lf cover now = Some r -> ln_facts mk pe po r.
Proof.
  intros Hcov. unfold liq_negative. destruct (negb _); [discriminate|]. destruct (update_settle_limit le c now) as [l|]; [|discriminate].
  set (E0 := settle_funding pe mk). set (O0 := settle_funding po mk).
  set (me := Z.max (Z.min ms (- apply_pnl_settle_limit E0 l mk c (unsettled_pnl E0 mk price))) 0).
  set (s := Z.max (Z.min me (of_int ml)) 0).
  assert (Hs : 0 <= s) by (unfold s; lia). clearbody s me.
  assert (QE : p_quote E0 = p_quote pe - owed mk pe) by (unfold E0, settle_funding; cbn [p_quote]; rewrite owed_unsettled; reflexivity).
  assert (QO : p_quote O0 = p_quote po - owed mk po) by (unfold O0, settle_funding; cbn [p_quote]; rewrite owed_unsettled; reflexivity).
  set (T := if 0 <? s then let '(pe0, le0) := record_settle E0 l mk c (- s) in (pe0, le0, record_liquidation_quote_change O0 (- s)) else (E0, l, O0)).
  assert (HT : p_quote (fst (fst T)) = p_quote pe - owed mk pe + s /\ p_quote (snd T) = p_quote po - owed mk po - s).
  { unfold T. destruct (Z.ltb_spec 0 s).
    - pose proof (record_settle_base E0 l mk c (- s)) as (_ & B & _). destruct (record_settle _ _ _ _ _) as [e1 l1]. cbn [fst snd] in *.
      unfold record_liquidation_quote_change, add_quote. cbn [p_quote]. lia.
    - cbn [fst snd]. lia. }
  destruct T as [[e1 l1] o1]. cbn [fst snd] in HT. destruct HT as [T1 T2].
  set (pnl := unsettled_pnl e1 mk price). clearbody E0 O0 pnl.
  match goal with |- (if ?b then _ else _) = _ -> _ => destruct b end.
  2:{ intros X. apply some_inj in X; subst r. constructor; cbn [ln_settled ln_ins_liab ln_soc ln_liqee ln_liqor ln_market]; try lia; reflexivity. }
  cbv zeta. set (fl := Z.max (Z.min (- pnl) fh) 0). set (tl := Z.max (Z.min fl (of_int ml - s)) 0).
  assert (Htl : 0 <= tl) by (unfold tl; lia). clearbody fl tl.
  set (pf := fmul sp (fone + lf)) in *. clearbody pf. destruct ((ip =? 0) || (pf =? 0)); [discriminate|].
  set (want := ceil_int (fdiv (fmul tl pf) ip)). destruct (Z.ltb_spec want 0) as [|Hw]; [discriminate|]. clearbody want.
  set (ins := Z.min want cover). set (il := Z.min (fdiv (fmul (of_int ins) ip) pf) tl).
  set (T := if 0 <? ins then let '(pe0, le0) := record_settle e1 l1 mk c (- il) in (pe0, le0, record_liquidation_quote_change o1 (- il)) else (e1, l1, o1)).
  assert (HT : (if 0 <? ins then il else 0) = p_quote (fst (fst T)) - p_quote e1 /\ p_quote (snd T) = p_quote o1 - (if 0 <? ins then il else 0)).
  { unfold T. destruct (Z.ltb_spec 0 ins).
    - pose proof (record_settle_base e1 l1 mk c (- il)) as (_ & B & _). destruct (record_settle _ _ _ _ _) as [e2 l2]. cbn [fst snd] in *.
      unfold record_liquidation_quote_change, add_quote. cbn [p_quote]. lia.
    - cbn [fst snd]. lia. }
  destruct T as [[e2 l2] o2]. cbn [fst snd] in HT. destruct HT as [T3 T4].
  assert (Hil : (if 0 <? ins then il else 0) = il).
  { destruct (Z.ltb_spec 0 ins) as [|Hz]; [reflexivity|]. assert (ins = 0) by (unfold ins in *; lia). unfold il.
    replace ins with 0 by lia. change (of_int 0) with 0. rewrite fmul_0_l. unfold fdiv. rewrite Z.mul_0_l.
    replace (Z.quot 0 pf) with 0; [lia|]. destruct (Z.eq_dec pf 0) as [->|]; [reflexivity|]. symmetry. apply Z.quot_0_l. assumption. }
  rewrite Hil in T3, T4. clearbody il. clear Hil.
  destruct ((ins =? cover) && (0 <? fl - il)) eqn:Eb.
  - apply andb_true_iff in Eb as [_ Eb]. apply Z.ltb_lt in Eb.
    destruct (socialize_loss mk (- (fl - il))) as [[mk' sx]|] eqn:Es; [|discriminate].
    pose proof (record_settle_base e2 l2 mk' c (- (fl - il))) as (_ & B & _). destruct (record_settle _ _ _ _ _) as [e3 l3]. cbn [fst snd] in B.
    intros X. apply some_inj in X; subst r. constructor; cbn [ln_settled ln_ins_liab ln_soc ln_liqee ln_liqor ln_market]; try lia.
    intros _. exists sx. exact Es.
  - intros X. apply some_inj in X; subst r. constructor; cbn [ln_settled ln_ins_liab ln_soc ln_liqee ln_liqor ln_market]; try lia. reflexivity.
Qed.

Record lb_facts (mk : market) (pe po : position) (transfer : fx) (r : liqbase) : Prop := mkLBF {
  bf_liqee : p_quote (lb_liqee r) = p_quote pe - owed mk pe + lb_quote_e r - Z.max transfer 0;
  bf_liqor : p_quote (lb_liqor r) = p_quote po - owed mk po + lb_quote_o r + Z.max transfer 0;
  bf_fee : lb_fee r = - lb_quote_o r - lb_quote_e r;
  bf_market : mk_long_funding (lb_market r) = mk_long_funding mk /\ mk_short_funding (lb_market r) = mk_short_funding mk /\
     mk_fees_accrued (lb_market r) = mk_fees_accrued mk + lb_fee r /\ mk_maker_fee (lb_market r) = mk_maker_fee mk }.

Lemma fmul_opp_le a b : 0 <= - fmul (- a) b - fmul a b.
Proof. pose proof (fmul_bounds a b). pose proof (fmul_bounds (- a) b). pose proof fone_pos. nia. Qed.
Lemma lb_amounts mk c pe le po lo price red tr lf pf pnlf now r : 0 <= mk_bls mk -> 0 <= price -> 0 <= pf ->
  liq_base mk c pe le po lo price red tr lf pf pnlf now = Some r -> lb_facts mk pe po tr r.
Proof.
  intros Hb Hp Hpf. unfold liq_base. destruct (negb _); [discriminate|]. destruct (update_settle_limit le c now) as [l|]; [|discriminate].
  set (E0 := settle_funding pe mk). set (O0 := settle_funding po mk).
  assert (QE : p_quote E0 = p_quote pe - owed mk pe) by (unfold E0, settle_funding; cbn [p_quote]; rewrite owed_unsettled; reflexivity).
  assert (QO : p_quote O0 = p_quote po - owed mk po) by (unfold O0, settle_funding; cbn [p_quote]; rewrite owed_unsettled; reflexivity).
  match goal with |- (if ?b then _ else _) = _ -> _ => destruct b eqn:Eg; [discriminate|] end.
  apply orb_false_iff in Eg as [Eg Et]. apply negb_false_iff, andb_true_iff in Eg as [R1 R2]. apply Z.leb_le in R1, R2. apply Z.ltb_ge in Et.
  clearbody E0 O0. cbv zeta. set (long := 0 <? p_base E0). clearbody long.
  set (per := fmul (of_int (mk_bls mk)) price). assert (Hper : 0 <= per).
  { unfold per. rewrite fmul_int_l. apply Z.mul_nonneg_nonneg; assumption. }
  clearbody per.
  set (base := if long then - red else red). set (q := fmul (- of_int base) per).
  set (fl := if long then fone - lf else fone + lf). set (fa := if long then fl - pf else fl + pf).
  set (qe := fmul q fa). set (qo := fmul (- q) fl).
  assert (Hq : q = - base * per). { unfold q. rewrite <- of_int_opp, fmul_int_l. reflexivity. }
  assert (Hfee : 0 <= - qo - qe).
  { assert (X : fmul q fa <= fmul q fl).
    { unfold fmul. apply Z.div_le_mono; [reflexivity|]. rewrite Hq. unfold base, fa. destruct long.
      - assert (0 <= red * per) by nia. nia.
      - assert (0 <= red * per) by nia. nia. }
    pose proof (fmul_opp_le q fl). unfold qo, qe. lia. }
  assert (Hzero : base = 0 -> qe = 0 /\ qo = 0).
  { intros Z0. assert (Hq0 : q = 0) by (rewrite Hq, Z0; reflexivity). unfold qe, qo. rewrite Hq0. split; apply fmul_0_l. }
  clearbody qe qo base. clear Hq q.
  set (T1 := if base =? 0 then (E0, mk) else record_trade E0 mk base qe).
  assert (H1 : p_quote (fst T1) = p_quote E0 + qe /\ mk_long_funding (snd T1) = mk_long_funding mk /\ mk_short_funding (snd T1) = mk_short_funding mk /\
    mk_fees_accrued (snd T1) = mk_fees_accrued mk /\ mk_maker_fee (snd T1) = mk_maker_fee mk).
  { unfold T1. destruct (Z.eqb_spec base 0) as [Z0|]; cbn [fst snd record_trade p_quote with_oi mk_long_funding mk_short_funding mk_fees_accrued mk_maker_fee].
    - destruct (Hzero Z0). repeat split; lia.
    - repeat split; reflexivity. }
  destruct T1 as [e1 mk1]. cbn [fst snd] in H1. destruct H1 as (H1 & M1a & M1b & M1c & M1d).
  set (T2 := if base =? 0 then (O0, mk1) else record_trade O0 mk1 (- base) qo).
  assert (H2 : p_quote (fst T2) = p_quote O0 + qo /\ mk_long_funding (snd T2) = mk_long_funding mk /\ mk_short_funding (snd T2) = mk_short_funding mk /\
    mk_fees_accrued (snd T2) = mk_fees_accrued mk /\ mk_maker_fee (snd T2) = mk_maker_fee mk).
  { unfold T2. destruct (Z.eqb_spec base 0) as [Z0|]; cbn [fst snd record_trade p_quote with_oi mk_long_funding mk_short_funding mk_fees_accrued mk_maker_fee].
    - destruct (Hzero Z0). repeat split; try assumption. lia.
    - repeat split; assumption. }
  destruct T2 as [o2 mk2]. cbn [fst snd] in H2. destruct H2 as (H2 & M2a & M2b & M2c & M2d).
  rewrite (Z.max_l (- qo - qe) 0) by lia. set (mk3 := with_fees mk2 (mk_fees_accrued mk2 + (- qo - qe))).
  assert (M3 : mk_long_funding mk3 = mk_long_funding mk /\ mk_short_funding mk3 = mk_short_funding mk /\
     mk_fees_accrued mk3 = mk_fees_accrued mk + (- qo - qe) /\ mk_maker_fee mk3 = mk_maker_fee mk).
  { unfold mk3. cbn [with_fees mk_long_funding mk_short_funding mk_fees_accrued mk_maker_fee]. rewrite M2c. auto. }
  clearbody mk3. destruct (Z.ltb_spec 0 tr).
  - destruct (takeover_limits _ _ _ _) as [x1 x2]. unfold record_liquidation_pnl_takeover.
    pose proof (record_settle_base e1 l mk3 c tr) as (_ & B & _). destruct (record_settle e1 l mk3 c tr) as [e3 l3]. cbn [fst] in B.
    intros X. apply some_inj in X; subst r. constructor; cbn [lb_liqee lb_liqor lb_quote_e lb_quote_o lb_fee lb_market add_quote p_quote]; first [exact M3 | lia].
  - intros X. apply some_inj in X; subst r. constructor; cbn [lb_liqee lb_liqor lb_quote_e lb_quote_o lb_fee lb_market]; first [exact M3 | lia].
Qed.

Lemma gain_market y y' lf sf mf tf pe fe aw lw : gain y (OpMarket lf sf mf tf pe fe aw lw) y' =
  fe - mk_fees_accrued (y_mk y) + totA (after_funding (y_mk y')) (y_accs y) - totA (after_funding (y_mk y)) (y_accs y).
Proof. reflexivity. Qed.
Lemma gain_market_same y lf sf mf tf pe fe aw lw y' : step y (OpMarket lf sf mf tf pe fe aw lw) = Some y' ->
  lf = mk_long_funding (y_mk y) -> sf = mk_short_funding (y_mk y) ->
  gain y (OpMarket lf sf mf tf pe fe aw lw) y' = fe - mk_fees_accrued (y_mk y).
Proof.
  intros H E1 E2. apply st_market in H as (_ & _ & F1 & F2 & _). rewrite gain_market, (tot_after_mk (y_mk y)) by congruence. lia.
Qed.

Ltac step_all Hr := cbn [run_ops] in Hr;
  repeat match type of Hr with
  | match step ?y ?x with _ => _ end = _ => let y1 := fresh "y" in let S := fresh "S" in destruct (step y x) as [y1|] eqn:S; [|discriminate]
  | Some _ = Some _ => apply some_inj in Hr
  end.

Lemma update_funding_spec bk mk fc last oracle now mk' last' : update_funding bk mk fc last oracle now = Some (mk', last') ->
  exists d, mk' = with_funding mk (mk_long_funding mk + d) (mk_short_funding mk + d).
Proof.
  unfold update_funding. destruct (now <=? last).
  - intros E. apply some_inj in E. injection E as <- _. exists 0. rewrite !Z.add_0_r. destruct mk; reflexivity.
  - destruct (native_price_to_lot mk oracle) as [ol|]; [|discriminate]. destruct (bs_valid_items _ _ _ _) as [B|]; [|discriminate].
    destruct (bs_valid_items _ _ _ _) as [A|]; [|discriminate]. destruct (funding_rate _ _ _ _ _) as [rate|]; [|discriminate].
    intros E. apply some_inj in E. injection E as <- _. eexists. reflexivity.
Qed.

Lemma gm_step cap capq m Q n E x m' soc : (0 < capq)%nat -> inv cap capq (ms_y m) Q n -> ginv (ms_y m) Q E ->
  mop_wf x -> is_force_close x = false -> mstep m x = Some (m', soc) ->
  exists Q n', inv cap capq (ms_y m') Q n' /\ ginv (ms_y m') Q (E + sumZ (map residue soc)).
Proof.
  intros Hcap HI HG HW Hfc H. unfold mstep in H. destruct (updates m x) as [[[L last'] soc']|] eqn:EU; [|discriminate].
  destruct (run_ops (ms_y m) L) as [y'|] eqn:Hr; [|discriminate]. apply some_inj in H. injection H as <- <-. cbn [ms_y].
  set (y := ms_y m) in *.
  assert (Hgo : all_ok y L -> gains y L = sumZ (map residue soc') -> exists Q n', inv cap capq y' Q n' /\ ginv y' Q (E + sumZ (map residue soc'))).
  { intros HA HE. rewrite <- HE. eapply ginv_run; eauto. }
  pose proof (g_rate _ _ _ HG) as Hrate. pose proof (g_bls _ _ _ HG) as Hbls.
  assert (Hbase : totA p_base (y_accs y) = 0) by apply HI.
  assert (Hoi : mk_open_interest (y_mk y) = totA (fun p => Z.abs (p_base p)) (y_accs y)) by apply HI.
  unfold updates in EU. fold y in EU. destruct x as [o|fc oracle now|mf tf pe aw lw|a b c la lb price sprice bmax le mt now|pk c l price mx|
    liqor liqee c le price ms ml fh sp ip lf cover now|liqor liqee c le lo price red tr lf pf pnlf now|a b price]; cbn [mop_wf is_force_close] in HW, Hfc.
  - destruct (complete o) eqn:Ec; [|discriminate]. injection EU as <- <- <-. step_all Hr. subst. apply Hgo.
    + cbn [all_ok]. rewrite S. split; [destruct o; cbn in Ec; try discriminate; exact I|]. split; [exact HW|exact I].
    + cbn [gains]. rewrite S. unfold sumZ; cbn [map fold_right]. destruct o; cbn [complete] in Ec; try discriminate; reflexivity.
  - destruct (update_funding _ _ _ _ _ _) as [[mk' l']|] eqn:Ef; [|discriminate]. injection EU as <- <- <-.
    destruct (update_funding_spec _ _ _ _ _ _ _ _ Ef) as (d & ->). unfold put_market in *. step_all Hr. subst. apply Hgo.
    + cbn [all_ok]. rewrite S. split; [exact Hrate|]. split; exact I.
    + cbn [gains]. rewrite S. rewrite gain_market. apply st_market in S as (_ & _ & F1 & F2 & _).
      rewrite (tot_shift (y_mk y) (y_mk y') d) by (rewrite ?F1, ?F2; reflexivity). rewrite Hbase. unfold sumZ; cbn [map fold_right with_funding mk_fees_accrued]. lia.
  - injection EU as <- <- <-. step_all Hr. subst. apply Hgo.
    + cbn [all_ok]. rewrite S. split; [exact HW|]. split; exact I.
    + cbn [gains]. rewrite S. rewrite (gain_market_same _ _ _ _ _ _ _ _ _ _ S) by reflexivity. unfold sumZ; cbn [map fold_right]. lia.
  - destruct (Z.eqb_spec a b) as [|Hne]; [discriminate|].
    destruct (get_position y a) as [pa|] eqn:Ga; [|discriminate]. destruct (get_position y b) as [pb|] eqn:Gb; [|discriminate].
    destruct (settle_pnl _ _ _ _ _ _ _ _ _ _ _ _) as [r|] eqn:Es; [|discriminate]. injection EU as <- <- <-.
    apply get_pos in Ga, Gb. pose proof (C20_settle_pnl _ _ _ _ _ _ _ _ _ _ _ _ _ Es) as (_ & _ & _ & _ & QA & QB & _).
    rewrite owed_unsettled in QA, QB. unfold put_quote in *. step_all Hr. subst. apply Hgo.
    + cbn [all_ok]. rewrite S, S0, S1, S2. cbn [op_ok op_wf]. tauto.
    + cbn [gains]. rewrite S, S0, S1, S2. cbn [gain]. apply st_funding in S as [M0 P0]. apply st_funding in S0 as [M1 P1].
      apply st_quote in S1 as [M2 P2].
      assert (Ra : p_quote (pos_of y1 a) = p_quote (pos_of y a) - owed (y_mk y) (pos_of y a)).
      { rewrite P1. destruct (Z.eqb_spec b a); [congruence|]. rewrite P0, Z.eqb_refl. unfold settle_funding; cbn [p_quote]. rewrite owed_unsettled. lia. }
      assert (Rb : p_quote (pos_of y2 b) = p_quote (pos_of y b) - owed (y_mk y) (pos_of y b)).
      { rewrite P2. destruct (Z.eqb_spec a b); [congruence|]. rewrite P1, Z.eqb_refl. unfold settle_funding; cbn [p_quote].
        rewrite owed_unsettled, P0, M0. destruct (Z.eqb_spec a b); [congruence|]. lia. }
      rewrite Ra, Rb, QA, QB. unfold sumZ; cbn [map fold_right]. lia.
  - destruct (get_position y pk) as [p|] eqn:Gp; [|discriminate].
    destruct (settle_fees _ _ _ _ _ _) as [[[[p' l'] mk'] s]|] eqn:Es; [|discriminate]. injection EU as <- <- <-. apply get_pos in Gp.
    pose proof (C20_settle_fees _ _ _ _ _ _ _ _ _ _ Es HW) as (_ & _ & QP & QM & _). rewrite owed_unsettled in QP.
    assert (QF : mk_long_funding mk' = mk_long_funding (y_mk y) /\ mk_short_funding mk' = mk_short_funding (y_mk y) /\ mk_maker_fee mk' = mk_maker_fee (y_mk y)).
    { unfold settle_fees in Es. destruct (mx =? 0); [discriminate|]. destruct (_ || _) in Es.
      - injection Es as _ _ <- _. auto.
      - destruct (record_settle _ _ _ _ _) as [? ?]. injection Es as _ _ <- _. auto. }
    destruct QF as (QF1 & QF2 & QF3). unfold put_quote, put_market in *. step_all Hr. subst. apply Hgo.
    + cbn [all_ok]. rewrite S, S0, S1. cbn [op_ok op_wf]. rewrite QF3. tauto.
    + cbn [gains]. rewrite S, S0, S1. apply st_funding in S as [M0 P0]. apply st_quote in S0 as [M1 P1].
      rewrite (gain_market_same _ _ _ _ _ _ _ _ _ _ S1) by congruence. cbn [gain].
      assert (Ra : p_quote (pos_of y0 pk) = p_quote (pos_of y pk) - owed (y_mk y) (pos_of y pk)).
      { rewrite P0, Z.eqb_refl. unfold settle_funding; cbn [p_quote]. rewrite owed_unsettled. lia. }
      rewrite Ra, QP, QM, M1, M0. unfold sumZ; cbn [map fold_right]. lia.
  - destruct (Z.eqb_spec liqor liqee) as [|Hne]; [discriminate|].
    destruct (get_or_new y liqor) as [po|] eqn:Go; [|discriminate]. destruct (get_position y liqee) as [pe|] eqn:Ge; [|discriminate].
    destruct (liq_negative _ _ _ _ _ _ _ _ _ _ _ _ _ _) as [r|] eqn:Es; [|discriminate]. injection EU as <- <- <-. apply get_pos in Ge. apply new_pos in Go.
    destruct (ln_amounts _ _ _ _ _ _ _ _ _ _ _ _ _ _ _ HW Es) as [(N1 & N2) QE QO FN FS].
    assert (QM : mk_maker_fee (ln_market r) = mk_maker_fee (y_mk y) /\ mk_fees_accrued (ln_market r) = mk_fees_accrued (y_mk y) /\ exists s,
      mk_long_funding (ln_market r) = mk_long_funding (y_mk y) - s /\ mk_short_funding (ln_market r) = mk_short_funding (y_mk y) + s /\
      ln_soc r + s * mk_open_interest (y_mk y) = sumZ (map residue (if 0 <? ln_soc r then [(ln_soc r, mk_open_interest (y_mk y))] else []))).
    { destruct (Z.ltb_spec 0 (ln_soc r)) as [Hs|Hs].
      - destruct (FS Hs) as (s & X). apply socialize_spec in X as (X1 & X2 & X3 & X4). rewrite X2. split; [reflexivity|]. split; [reflexivity|].
        exists s. split; [reflexivity|]. split; [reflexivity|]. unfold sumZ; cbn [map fold_right]. unfold residue; cbn [fst snd].
        destruct (Z.eqb_spec (mk_open_interest (y_mk y)) 0) as [Z0|Z0]; [rewrite (X3 Z0); lia|].
        assert (Ho : 0 < mk_open_interest (y_mk y)).
        { assert (0 <= mk_open_interest (y_mk y)); [|lia]. rewrite Hoi. unfold totA. clear. unfold sumZ. induction (y_accs y) as [|z A IH]; cbn [map fold_right]; lia. }
        rewrite (X4 Ho), Z.opp_involutive. pose proof (Z.div_mod (ln_soc r) (mk_open_interest (y_mk y)) Z0). lia.
      - rewrite (FN ltac:(lia)). split; [reflexivity|]. split; [reflexivity|]. exists 0. unfold sumZ; cbn [map fold_right]. lia. }
    destruct QM as (QM1 & QM2 & s & QM3 & QM4 & QM5). unfold put_quote, put_market in *. step_all Hr. subst. apply Hgo.
    + cbn [all_ok]. rewrite S, S0, S1, S2, S3, S4. cbn [op_ok op_wf]. rewrite QM1. tauto.
    + cbn [gains]. rewrite S, S0, S1, S2, S3, S4. rewrite gain_market. cbn [gain].
      assert (HI2 : exists Q n, inv cap capq y2 Q n).
      { destruct (inv_step _ _ _ _ _ (OpActivate liqor) _ Hcap HI I S) as (Q1 & n1 & HI1). destruct (inv_step _ _ _ _ _ (OpFunding liqee) _ Hcap HI1 I S0) as (Q2 & n2 & HI2).
        apply (inv_step _ _ _ _ _ (OpFunding liqor) _ Hcap HI2 I S1). }
      destruct HI2 as (Q2 & n2 & HI2). assert (Hoi2 : mk_open_interest (y_mk y2) = totA (fun p => Z.abs (p_base p)) (y_accs y2)) by apply HI2.
      apply st_activate in S as [M0 P0]. apply st_funding in S0 as [M1 P1]. apply st_funding in S1 as [M2 P2].
      apply st_market in S2 as (A3 & P3 & F1 & F2 & F3 & _). apply st_quote in S3 as [M4 P4].
      assert (M20 : y_mk y2 = y_mk y) by congruence.
      rewrite (tot_spread (y_mk y2) (y_mk y3) s) by (rewrite ?F1, ?F2, M20; assumption). rewrite <- Hoi2, M20, QM2.
      assert (Re : p_quote (pos_of y3 liqee) = p_quote (pos_of y liqee) - owed (y_mk y) (pos_of y liqee)).
      { rewrite P3, P2. destruct (Z.eqb_spec liqor liqee); [congruence|]. rewrite P1, Z.eqb_refl. unfold settle_funding; cbn [p_quote].
        rewrite owed_unsettled, P0, M0. lia. }
      assert (Ro : p_quote (pos_of y4 liqor) = p_quote (pos_of y liqor) - owed (y_mk y) (pos_of y liqor)).
      { rewrite P4. destruct (Z.eqb_spec liqee liqor); [congruence|]. rewrite P3, P2, Z.eqb_refl. unfold settle_funding; cbn [p_quote].
        rewrite owed_unsettled, P1, M1, M0. destruct (Z.eqb_spec liqee liqor); [congruence|]. rewrite P0. lia. }
      rewrite Re, Ro, QE, QO. lia.
  - destruct (Z.eqb_spec liqor liqee) as [|Hne]; [discriminate|]. destruct HW as [HP HF].
    destruct (get_or_new y liqor) as [po|] eqn:Go; [|discriminate]. destruct (get_position y liqee) as [pe|] eqn:Ge; [|discriminate].
    destruct (liq_base _ _ _ _ _ _ _ _ _ _ _ _ _) as [r|] eqn:Es; [|discriminate]. injection EU as <- <- <-. apply get_pos in Ge. apply new_pos in Go.
    destruct (lb_amounts _ _ _ _ _ _ _ _ _ _ _ _ _ _ Hbls HP HF Es) as [QE QO QF (QM1 & QM2 & QM3 & QM4)].
    unfold put_quote, put_market in *. step_all Hr. subst. 
    pose proof S as S'. pose proof S0 as S0'. pose proof S1 as S1'. pose proof S2 as S2'.
    apply st_activate in S' as [M0 P0]. apply st_funding in S0' as [M1 P1]. apply st_funding in S1' as [M2 P2].
    apply st_trade in S2' as (T1 & T2 & T3 & _ & _ & Hne' & T4 & T5 & T6).
    assert (M20 : y_mk y2 = y_mk y) by congruence. apply Hgo.
    + cbn [all_ok]. rewrite S, S0, S1, S2, S3, S4, S5. cbn [op_ok op_wf]. rewrite QM4.
      assert (settled_up y2 liqee /\ settled_up y2 liqor); [|tauto]. unfold settled_up. rewrite !P2, M20, Z.eqb_refl.
      destruct (Z.eqb_spec liqor liqee); [congruence|]. rewrite P1, Z.eqb_refl, M0, M1, M0. cbn [settle_funding p_long_settled p_short_settled]. auto.
    + cbn [gains]. rewrite S, S0, S1, S2, S3, S4, S5. rewrite (gain_market_same _ _ _ _ _ _ _ _ _ _ S3) by congruence. cbn [gain].
      apply st_market in S3 as (_ & P4 & _). apply st_quote in S4 as [_ P5].
      assert (Re : p_quote (pos_of y4 liqee) = p_quote (pos_of y liqee) - owed (y_mk y) (pos_of y liqee) + lb_quote_e r).
      { rewrite P4, T5, P2. destruct (Z.eqb_spec liqor liqee); [congruence|]. rewrite P1, Z.eqb_refl. unfold settle_funding; cbn [p_quote].
        rewrite owed_unsettled, P0, M0. lia. }
      assert (Ro : p_quote (pos_of y5 liqor) = p_quote (pos_of y liqor) - owed (y_mk y) (pos_of y liqor) + lb_quote_o r).
      { rewrite P5. destruct (Z.eqb_spec liqee liqor); [congruence|]. rewrite P4, T6, P2, Z.eqb_refl. unfold settle_funding; cbn [p_quote].
        rewrite owed_unsettled, P1, M1, M0. destruct (Z.eqb_spec liqee liqor); [congruence|]. rewrite P0. lia. }
      rewrite Re, Ro, QE, QO, QM3, QF, T3, M20. unfold sumZ; cbn [map fold_right]. lia.
  - discriminate.
Qed.
