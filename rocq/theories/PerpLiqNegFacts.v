(** Lemmas for PropPerpLiqNeg. *)
From Coq Require Import List ZArith Lia Bool Arith.
From Verif Require Import OrderTree Keys PerpTypes SettleLimit SettleFacts PerpMoney PerpMoneySpec PerpCancel PerpClaims PerpClaims2 PropPerpLiq Interest Bank Health HealthSpec HealthFacts HealthMore LiqState
  TokenLiq TokenLiqSpec TokenLiqFacts PerpLiqBase PerpLiqBaseSpec PerpLiqBaseFacts PerpLiqBaseIx PerpLiqNeg PerpLiqNegSpec Fixed.
Import ListNotations.
Open Scope Z_scope.

(** everything but quote is as before *)
Definition same_pos (p q : position) : Prop :=
  p_base q = p_base p /\ p_bids q = p_bids p /\ p_asks q = p_asks p /\ p_taker_base q = p_taker_base p /\ p_taker_quote q = p_taker_quote p.
Lemma same_pos_refl p : same_pos p p. Proof. unfold same_pos. tauto. Qed.
Lemma same_pos_add p q x y : same_pos p q -> same_pos p (add_quote q x y). Proof. intros H. exact H. Qed.
Lemma same_pos_settle p q l mk c x : same_pos p q -> same_pos p (fst (record_settle q l mk c x)).
Proof. intros H. destruct (record_settle_pos q l mk c x) as [y ->]. exact H. Qed.

Lemma ln_more mk c pe le po price ms ml fh sp ip lf cover now r :
  liq_negative mk c pe le po price ms ml fh sp ip lf cover now = Some r ->
  same_pos pe (ln_liqee r) /\ same_pos po (ln_liqor r) /\ mk_index (ln_market r) = mk_index mk /\ mk_bls (ln_market r) = mk_bls mk /\
  mk_qls (ln_market r) = mk_qls mk /\ mk_open_interest (ln_market r) = mk_open_interest mk /\
  p_long_settled (ln_liqee r) = mk_long_funding mk /\ p_short_settled (ln_liqee r) = mk_short_funding mk.
Proof.
  unfold liq_negative. cbv zeta. destruct (negb _); [discriminate|]. destruct (update_settle_limit le c now) as [l|]; [|discriminate].
  set (E0 := settle_funding pe mk). set (O0 := settle_funding po mk).
  set (me := Z.max (Z.min ms _) 0). set (s := Z.max (Z.min me (of_int ml)) 0). clearbody me s.
  set (fd := fun p => p_long_settled p = mk_long_funding mk /\ p_short_settled p = mk_short_funding mk).
  assert (FS : forall q l mk c x, fd q -> fd (fst (record_settle q l mk c x))).
  { intros q l0 mk0 c0 x H. destruct (record_settle_pos q l0 mk0 c0 x) as [y ->]. exact H. }
  assert (A : same_pos pe E0 /\ fd E0 /\ same_pos po O0) by (unfold same_pos, fd; cbn; tauto). clearbody E0 O0. destruct A as (A1 & A2 & A3).
  set (T := if 0 <? s then let '(pe0, le0) := record_settle E0 l mk c (- s) in (pe0, le0, record_liquidation_quote_change O0 (- s)) else (E0, l, O0)).
  assert (HT : same_pos pe (fst (fst T)) /\ fd (fst (fst T)) /\ same_pos po (snd T)).
  { unfold T. destruct (0 <? s); [|cbn; tauto]. pose proof (same_pos_settle pe E0 l mk c (- s) A1) as Q1. pose proof (FS E0 l mk c (- s) A2) as Q2.
    destruct (record_settle _ _ _ _ _) as [e1 l1]. cbn [fst snd] in *. split; [exact Q1|]. split; [exact Q2|]. apply same_pos_add, A3. }
  clearbody T. destruct T as [[e1 l1] o1]. cbn [fst snd] in HT. destruct HT as (B1 & B2 & B3).
  assert (G : forall mk1 e o, mk1 = mk \/ (exists x y, mk1 = with_funding mk x y) -> same_pos pe e -> fd e -> same_pos po o ->
    same_pos pe e /\ same_pos po o /\ mk_index mk1 = mk_index mk /\ mk_bls mk1 = mk_bls mk /\ mk_qls mk1 = mk_qls mk /\ mk_open_interest mk1 = mk_open_interest mk /\ fd e).
  { intros mk1 e o [->|(x & y & ->)] H1 H2 H3; do 6 (split; [first [assumption|reflexivity]|]); exact H2. }
  match goal with |- (if ?b then _ else _) = _ -> _ => destruct b end.
  2:{ intros X. apply some_inj in X; subst r. apply G; auto. }
  match goal with |- (if ?b then _ else _) = _ -> _ => destruct b; [discriminate|] end.
  set (want := ceil_int _). destruct (want <? 0); [discriminate|]. set (ins := Z.min want cover). clearbody ins. clear want.
  set (il := Z.min _ _). clearbody il. set (rem := _ - il). clearbody rem.
  set (T := if 0 <? ins then let '(pe0, le0) := record_settle e1 l1 mk c (- il) in (pe0, le0, record_liquidation_quote_change o1 (- il)) else (e1, l1, o1)).
  assert (HT : same_pos pe (fst (fst T)) /\ fd (fst (fst T)) /\ same_pos po (snd T)).
  { unfold T. destruct (0 <? ins); [|cbn; tauto]. pose proof (same_pos_settle pe e1 l1 mk c (- il) B1) as Q1. pose proof (FS e1 l1 mk c (- il) B2) as Q2.
    destruct (record_settle _ _ _ _ _) as [e2 l2]. cbn [fst snd] in *. split; [exact Q1|]. split; [exact Q2|]. apply same_pos_add, B3. }
  clearbody T. destruct T as [[e2 l2] o2]. cbn [fst snd] in HT. destruct HT as (C1 & C2 & C3).
  destruct (_ && _).
  - unfold socialize_loss. match goal with |- match (if ?b then _ else _) with _ => _ end = _ -> _ => destruct b; [discriminate|] end. cbv zeta.
    match goal with |- context [record_settle ?p ?l ?m ?c ?x] => pose proof (same_pos_settle pe p l m c x C1) as Q1; pose proof (FS p l m c x C2) as Q2; destruct (record_settle p l m c x) as [e3 l3] end.
    cbn [fst] in Q1, Q2. intros X. apply some_inj in X; subst r. cbn [ln_liqee ln_liqor ln_market]. apply G; auto. right. eexists _, _. reflexivity.
  - intros X. apply some_inj in X; subst r. apply G; auto.
Qed.

(** if the liqor offers enough, everything that health needs is covered, up to the rounding of the insurance price *)
Definition neg_round (pf ip : fx) : Z := (fone + ip) / pf + 1.
Lemma ln_complete mk c pe le po price ms ml fh sp ip lf cover now r :
  0 <= cover -> 0 < ip -> 0 < fmul sp (fone + lf) -> - pnl_of mk pe price <= of_int ml ->
  liq_negative mk c pe le po price ms ml fh sp ip lf cover now = Some r ->
  let rest := - pnl_of mk pe price - ln_settled r in
  0 <= rest /\ (0 < rest -> bankruptcy_reached mk c pe le price ms ml now = true) /\
  Z.max 0 (Z.min rest fh) - neg_round (fmul sp (fone + lf)) ip <= ln_ins_liab r + ln_soc r.
Proof.
  intros Hcov Hip Hpf Hml. unfold liq_negative, bankruptcy_reached.
  assert (P0 : unsettled_pnl (settle_funding pe mk) mk price = pnl_of mk pe price).
  { unfold unsettled_pnl, pnl_of, after_funding, settle_funding. cbn [p_quote p_base]. rewrite owed_unsettled. reflexivity. }
  cbv zeta. rewrite P0. set (pnl0 := pnl_of mk pe price) in *. destruct (Z.ltb_spec pnl0 0) as [Hneg|]; cbn [negb]; [|discriminate].
  destruct (update_settle_limit le c now) as [l|]; [|discriminate].
  set (E0 := settle_funding pe mk) in *. set (O0 := settle_funding po mk).
  pose proof (limit_le E0 l mk c _ Hneg) as HL. set (able := apply_pnl_settle_limit E0 l mk c pnl0) in *. clearbody able.
  set (me := Z.max (Z.min ms (- able)) 0). set (s := Z.max (Z.min me (of_int ml)) 0).
  assert (Hs : s = me /\ 0 <= s <= - pnl0) by (unfold s, me; lia). clearbody s me. destruct Hs as [Es Hs]. subst me. rewrite Z.eqb_refl.
  set (T := if 0 <? s then let '(pe0, le0) := record_settle E0 l mk c (- s) in (pe0, le0, record_liquidation_quote_change O0 (- s)) else (E0, l, O0)).
  assert (HT : unsettled_pnl (fst (fst T)) mk price = pnl0 + s).
  { unfold T. destruct (Z.ltb_spec 0 s).
    - pose proof (record_settle_base E0 l mk c (- s)) as (B0 & B & _). destruct (record_settle _ _ _ _ _) as [e1 l1]. cbn [fst snd] in *.
      rewrite <- P0. unfold unsettled_pnl. rewrite B0, B. lia.
    - cbn [fst snd]. lia. }
  destruct T as [[e1 l1] o1]. cbn [fst snd] in HT. rewrite HT. clear HT P0. clearbody E0 O0 pnl0.
  pose proof fone_pos as Hf. set (pf := fmul sp (fone + lf)) in *. clearbody pf. cbn [andb].
  assert (K0 : 1 <= neg_round pf ip) by (unfold neg_round; assert (0 <= (fone + ip) / pf) by (apply Z.div_pos; lia); lia).
  destruct (Z.ltb_spec (pnl0 + s) 0) as [Q|Q].
  2:{ intros X. apply some_inj in X; subst r. cbn [ln_settled ln_ins ln_ins_liab ln_soc]. split; [lia|]. split; [lia|]. lia. }
  set (fl := Z.max (Z.min (- (pnl0 + s)) fh) 0). set (tl := Z.max (Z.min fl (of_int ml - s)) 0).
  assert (Htl : tl = fl /\ 0 <= tl) by (unfold tl, fl; lia). destruct Htl as [Etl Htl]. rewrite Etl in *. clear Etl tl.
  destruct (Z.eqb_spec ip 0); [lia|]. destruct (Z.eqb_spec pf 0); [lia|]. cbn [orb].
  set (v := fdiv (fmul fl pf) ip). set (want := ceil_int v).
  assert (Hv : 0 <= fmul fl pf) by (apply fmul_nonneg; lia).
  pose proof (Fixed.fdiv_pos_bounds _ _ Hv Hip) as V1. fold v in V1. pose proof (fmul_bounds fl pf) as V2.
  pose proof (ceil_int_bounds v) as V3. fold want in V3. unfold of_int in V3. clearbody v.
  destruct (Z.ltb_spec want 0) as [|Hw]; [discriminate|].
  set (ins := Z.min want cover). set (u := fdiv (fmul (of_int ins) ip) pf). set (il := Z.min u fl).
  assert (I1 : 0 <= ins) by (unfold ins; lia).
  assert (U : 0 <= u /\ u * pf <= ins * ip * fone < u * pf + pf).
  { unfold u. rewrite fmul_int_l. split; [apply fdiv_nonneg; nia|apply Fixed.fdiv_pos_bounds; nia]. }
  assert (IL : ins < cover -> fl - il <= neg_round pf ip).
  { intros LT. assert (EI : ins = want) by (unfold ins in *; lia). unfold il. destruct (Z.min_spec u fl) as [[Q1 ->]|[Q1 ->]]; [|lia].
    assert (W : want * fone * ip + ip > fl * pf - fone).
    { assert (v * ip <= want * fone * ip) by (apply Z.mul_le_mono_nonneg_r; lia). lia. }
    assert (X : (fl - u - 1) * pf <= fone + ip) by (rewrite EI in U; lia).
    unfold neg_round. assert (fl - u - 1 <= (fone + ip) / pf); [|lia]. apply Z.div_le_lower_bound; lia. }
  assert (IM : 0 <= il <= fl) by (unfold il; lia).
  assert (EC : (ins =? cover) = false -> ins < cover) by (intros E; apply Z.eqb_neq in E; unfold ins in *; lia). clearbody il ins. clear U u V1 V2 V3 Hw want v.
  set (T := if 0 <? ins then let '(pe0, le0) := record_settle e1 l1 mk c (- il) in (pe0, le0, record_liquidation_quote_change o1 (- il)) else (e1, l1, o1)).
  clearbody T. destruct T as [[e2 l2] o2].
  assert (FL : Z.max 0 (Z.min (- pnl0 - s) fh) = fl) by (unfold fl; lia).
  destruct ((ins =? cover) && (0 <? fl - il)) eqn:Ec.
  - destruct (socialize_loss mk (- (fl - il))) as [[mk' sx]|]; [|discriminate]. destruct (record_settle _ _ _ _ _) as [e3 l3].
    intros X. apply some_inj in X; subst r. cbn [ln_settled ln_ins ln_ins_liab ln_soc]. rewrite FL. split; [lia|]. split; [reflexivity|]. lia.
  - intros X. apply some_inj in X; subst r. cbn [ln_settled ln_ins ln_ins_liab ln_soc]. rewrite FL. split; [lia|]. split; [reflexivity|].
    apply andb_false_iff in Ec as [Ec|Ec]; [specialize (IL (EC Ec)); lia|]. apply Z.ltb_ge in Ec. lia.
Qed.

(** ** the cache *)
Lemma uhupnl_no_base p mk st aw lw mo io pr ty : p_base p = 0 -> p_bids p = 0 -> p_asks p = 0 -> p_taker_base p = 0 -> p_taker_quote p = 0 ->
  uhupnl (new_pinfo p mk st aw lw mo io pr) ty = after_funding mk p.
Proof.
  intros N B A T1 T2. unfold uhupnl, execution_case, new_pinfo, after_funding.
  cbn [pi_quote pi_base pi_bids pi_asks pi_lot pi_init_aw pi_init_lw pi_maint_aw pi_maint_lw pi_prices]. rewrite N, B, A, T1, T2, owed_unsettled.
  change (0 + 0 + 0) with 0. change (- 0) with 0. change (0 + 0 + - 0) with 0. rewrite !Z.mul_0_l. change (of_int 0) with 0. change (- 0) with 0. rewrite !fmul_0_l. destruct ty; cbn [Z.min]; lia.
Qed.
Lemma hupnl_no_base p mk st aw lw mo io pr ty : p_base p = 0 -> p_bids p = 0 -> p_asks p = 0 -> p_taker_base p = 0 -> p_taker_quote p = 0 -> after_funding mk p <= 0 ->
  hupnl (new_pinfo p mk st aw lw mo io pr) ty = after_funding mk p.
Proof.
  intros N B A T1 T2 Q. unfold hupnl. rewrite uhupnl_no_base by assumption. cbv zeta. destruct (Z.ltb_spec 0 (after_funding mk p)); [lia|reflexivity].
Qed.
Lemma perp_balances_ignored toks ty f pi : forall P i acc, nth_error P i = Some pi -> pi_settle (f pi) = pi_settle pi -> hupnl pi ty <= 0 -> hupnl (f pi) ty <= 0 ->
  perp_balances toks ty true (update_nth P i f) acc = perp_balances toks ty true P acc.
Proof.
  induction P as [|qi P IH]; intros [|i] acc Hn Hs H1 H2; try discriminate; cbn [nth_error] in Hn; cbn [update_nth perp_balances].
  - apply some_inj in Hn. subst qi. rewrite Hs. destruct (token_pos _ _); [|reflexivity]. cbn [negb orb].
    destruct (Z.ltb_spec 0 (hupnl pi ty)); [lia|]. destruct (Z.ltb_spec 0 (hupnl (f pi) ty)); [lia|]. reflexivity.
  - destruct (token_pos toks (pi_settle qi)); [|reflexivity]. apply IH; assumption.
Qed.
Lemma contributions_update_maint toks sw x : forall i B,
  token_contributions (update_nth toks i (fun t => set_spot t (ti_spot t - (- x)) (fst sw) (snd sw))) HMaint B = token_contributions toks HMaint B.
Proof.
  unfold token_contributions. induction toks as [|t toks IH]; intros [|i] [|b B]; cbn [update_nth combine map fst snd]; try reflexivity.
  f_equal. apply IH.
Qed.
Lemma adjust_maint hc idx x sw hc' B : adjust_token_balance hc idx x sw = Some hc' -> balances hc HMaint true = Some B ->
  exists i, token_pos (hc_tokens hc) idx = Some i /\ balances hc' HMaint true = Some (add_at B i x) /\
    (forall X, token_contributions (hc_tokens hc') HMaint X = token_contributions (hc_tokens hc) HMaint X) /\
    hc_serum hc' = hc_serum hc /\ hc_perps hc' = hc_perps hc.
Proof.
  unfold adjust_token_balance. destruct (token_pos (hc_tokens hc) idx) as [i|] eqn:E; [|discriminate]. intros H HB. apply some_inj in H; subst hc'.
  cbn [hc_tokens hc_serum hc_perps]. exists i. split; [reflexivity|].
  assert (TP : forall k, token_pos (update_nth (hc_tokens hc) i (fun t => set_spot t (ti_spot t - - x) (fst sw) (snd sw))) k = token_pos (hc_tokens hc) k)
    by (intros k; apply token_pos_update; reflexivity).
  split; [|split; [intros X; apply contributions_update_maint|split; reflexivity]].
  unfold balances in *. cbn [hc_tokens hc_perps].
  rewrite (perp_balances_update (hc_tokens hc)) by exact TP. rewrite update_nth_length.
  destruct (perp_balances (hc_tokens hc) HMaint true (hc_perps hc) _) as [L|] eqn:EP; [|discriminate].
  apply some_inj in HB; subst B. f_equal. rewrite spot_update'. apply zadd_add_at.
  apply perp_balances_spec in EP as (HL & _); [|apply zeros_length]. rewrite map_length. exact HL.
Qed.
Lemma sum_no_reserved hc ty B h : no_reserved hc -> health_sum hc ty B = Some h -> h = sum (token_contributions (hc_tokens hc) ty B).
Proof.
  intros N. unfold health_sum. destruct (serum_contributions hc ty B) as [C|] eqn:E; [|discriminate]. intros H. apply some_inj in H; subst h.
  rewrite (no_reserved_sum _ _ _ _ N E). lia.
Qed.
Lemma add_at_zero B : forall k, add_at B k 0 = B.
Proof. induction B as [|b B IH]; intros [|k]; cbn [add_at]; try reflexivity; f_equal; [lia|apply IH]. Qed.

Lemma phase2_facts hc zp : after_phase2 hc zp = true -> after_phase1 hc = true /\
  forall i p mk st aw lw mo io pr, nth_error (hc_perps hc) i = Some (new_pinfo p mk st aw lw mo io pr) ->
  p_base p = 0 /\ p_bids p = 0 /\ p_asks p = 0 /\ p_taker_base p = 0 /\ p_taker_quote p = 0 /\ after_funding mk p <= 0.
Proof.
  unfold after_phase2. intros H. do 4 (apply andb_prop in H as [H ?]). split; [exact H|]. intros i p mk st aw lw mo io pr Hn. apply nth_error_In in Hn.
  apply negb_true_iff in H0, H1, H2, H3. unfold after_phase1 in H. apply andb_prop in H as [_ H]. apply negb_true_iff in H.
  assert (F : forall f, existsb f (hc_perps hc) = false -> f (new_pinfo p mk st aw lw mo io pr) = false).
  { intros f Hf. destruct (f _) eqn:Q; [|reflexivity]. assert (existsb f (hc_perps hc) = true); [|congruence]. apply existsb_exists. eauto. }
  apply F in H. unfold has_perp_positive, has_perp_open_fills, has_perp_base in *. apply F in H0, H1, H2.
  destruct (no_orders _ _ _ _ _ _ _ _ _ eq_refl H) as [N1 N2]. cbn [new_pinfo pi_fills pi_base pi_quote] in H0, H1, H2.
  apply orb_false_iff in H1 as [T1 T2]. apply negb_false_iff, Z.eqb_eq in T1, T2, H2. rewrite H2, Z.eqb_refl in H0. cbn [andb] in H0. apply Z.ltb_ge in H0.
  rewrite T1 in H2. rewrite T2, Z.mul_0_l in H0. change (of_int 0) with 0 in H0. unfold after_funding. rewrite <- owed_unsettled.
  do 5 (split; [first [assumption|lia]|]). lia.
Qed.

(** the course of a liquidation *)
Record nran (e : nenv) (s s' : nstate) (t : tinfo) (h h' : fx) (max_liab : Z) (r : liqneg) (ms fh s0 : fx) : Prop := mkNran {
  nr_flat : p_base (ns_ee s) = 0 /\ p_taker_base (ns_ee s) = 0 /\ p_taker_quote (ns_ee s) = 0 /\ after_funding (ns_mk s) (ns_ee s) <= 0;
  nr_pnl : pnl_of (ns_mk s) (ns_ee s) (ne_price e) = after_funding (ns_mk s) (ns_ee s);
  nr_liq : liq_negative (ns_mk s) (ne_cfg e) (ns_ee s) (ne_le e) (ns_or s) (ne_price e) ms max_liab fh
     (ne_sprice e) (ne_iprice e) (bp_fee (ne_par e)) (cover_of e s) (ne_now e) = Some r;
  nr_max : perp_max_settle (ns_cache s) (ne_settle e) = Some ms;
  nr_fh : if bankruptcy_reached (ns_mk s) (ne_cfg e) (ns_ee s) (ne_le e) (ne_price e) ms max_liab (ne_now e)
     then spot_amount_given h s0 (asset_wp t HLiqEnd) (liab_wp t HLiqEnd) = Some fh else fh = 0;
  nr_end : ns_ee s' = ln_liqee r /\ ns_mk s' = ln_market r /\ ns_or s' = ln_liqor r /\ ns_vault s' = ns_vault s - ln_ins r /\ ns_flag s' = ns_flag s;
  nr_quote : p_quote (ns_ee s') = after_funding (ns_mk s) (ns_ee s) + ln_settled r + ln_ins_liab r + ln_soc r;
  nr_neg : after_funding (ns_mk s') (ns_ee s') = p_quote (ns_ee s') /\ p_quote (ns_ee s') <= 0;
  nr_h : h' = h - contribution t HLiqEnd s0 + contribution t HLiqEnd (s0 + (ln_ins_liab r + ln_soc r));
  nr_settle : forall g g', settle_health (ns_cache s) = Some g -> settle_health (ns_cache s') = Some g' ->
     exists x, spot_amount_taken g x (asset_wp t HMaint) (liab_wp t HMaint) = Some ms /\
     g' = g - contribution t HMaint x + contribution t HMaint (x - ln_settled r) }.

Lemma neg_ran e s s' t h h' ml r zp : nenv_ok e -> nstate_ok e s t -> 0 <= ml -> spot_zip (ns_cache s) = Some zp -> after_phase2 (ns_cache s) zp = true ->
  Health.health (ns_cache s) HLiqEnd = Some h -> neg_action e s h ml = Some (s', r) -> Health.health (ns_cache s') HLiqEnd = Some h' ->
  exists ms fh s0, nran e s s' t h h' ml r ms fh s0.
Proof.
  intros (E1 & E2 & E3 & E4) [O1 [k Ok] (W1 & W2 & W3) (ip & pr & Op1 & Op2) [Mt1 Mt2] Ov] Hml Hz Hp2 Hh H Hh'.
  apply phase2_facts in Hp2 as [Hp1 PF]. destruct (PF _ _ _ _ _ _ _ _ _ Op2) as (F1 & F2 & F3 & F4 & F5 & F6). clear PF.
  pose proof (phase1_no_reserved _ O1 Hp1) as NR. unfold neg_action in H.
  destruct (perp_max_settle _ _) as [ms|] eqn:Ems; [|discriminate].
  destruct (balances (ns_cache s) HLiqEnd false) as [B|] eqn:EB; [|discriminate]. rewrite Ok in H.
  unfold nth_info in Ok. destruct (token_pos (hc_tokens (ns_cache s)) (ne_settle e)) as [k'|] eqn:Ek; [|discriminate].
  destruct (nth_error (hc_tokens (ns_cache s)) k') as [t'|] eqn:Et; [|discriminate]. apply some_inj in Ok. apply pair_equal_spec in Ok as [<- <-].
  match type of H with match ?m with _ => _ end = _ => destruct m as [fh|] eqn:Ef; [|discriminate] end.
  destruct (liq_negative _ _ _ _ _ _ _ _ _ _ _ _ _ _) as [r1|] eqn:Er; [|discriminate].
  match type of H with match ?m with _ => _ end = _ => destruct m as [[[[bk et] ot] hc]|] eqn:Em; [|discriminate] end.
  match type of H with match ?m with _ => _ end = _ => destruct m as [[[bk2 ot2] ins2]|] eqn:Ei; [|discriminate] end.
  destruct (recompute_perp _ _ _ _ _) as [hc2|] eqn:Ec; [|discriminate]. apply some_inj in H. apply pair_equal_spec in H as [Hs Hr]. subst r1. subst s'. cbn [ns_cache] in Hh'.
  set (pi := new_pinfo _ _ _ _ _ _ _ _) in *.
  assert (CV0 : 0 <= cover_of e s) by (unfold cover_of; destruct (ne_eligible e); lia).
  pose proof (ln_amounts _ _ _ _ _ _ _ _ _ _ _ _ _ _ _ CV0 Er) as LF. pose proof (ln_more _ _ _ _ _ _ _ _ _ _ _ _ _ _ _ Er) as ((S1 & S2 & S3 & S4 & S5) & _ & M1 & M2 & _).
  pose proof (C55_liq_negative _ _ _ _ _ _ _ _ _ _ _ _ _ _ _ CV0 E1 E2 Hml Er) as CL. cbv zeta in CL. destruct CL as (CL1 & CL2 & CL3 & CL4 & CL5 & _).
  assert (PN : pnl_of (ns_mk s) (ns_ee s) (ne_price e) = after_funding (ns_mk s) (ns_ee s)).
  { unfold pnl_of. rewrite F1, Z.mul_0_l. change (of_int 0) with 0. rewrite fmul_0_l. lia. }
  assert (AF : after_funding (ln_market r) (ln_liqee r) = p_quote (ln_liqee r)).
  { unfold after_funding, owed. rewrite S1, F1, Z.mul_0_r. lia. }
  assert (QE : p_quote (ln_liqee r) = after_funding (ns_mk s) (ns_ee s) + ln_settled r + ln_ins_liab r + ln_soc r) by (rewrite (lf_liqee _ _ _ _ LF); reflexivity).
  rewrite PN in CL1, CL5. assert (QN : p_quote (ln_liqee r) <= 0) by lia.
  (* the cache after the token transfer *)
  assert (A : balances hc HLiqEnd false = Some (add_at B k' (- ln_settled r)) /\ (forall X, token_contributions (hc_tokens hc) HLiqEnd X = token_contributions (hc_tokens (ns_cache s)) HLiqEnd X) /\
     hc_serum hc = hc_serum (ns_cache s) /\ hc_perps hc = hc_perps (ns_cache s) /\ (forall q, token_pos (hc_tokens hc) q = token_pos (hc_tokens (ns_cache s)) q) /\
     forall B1, balances (ns_cache s) HMaint true = Some B1 -> balances hc HMaint true = Some (add_at B1 k' (- ln_settled r)) /\
       (forall X, token_contributions (hc_tokens hc) HMaint X = token_contributions (hc_tokens (ns_cache s)) HMaint X)).
  { destruct (Z.ltb_spec 0 (ln_settled r)) as [Q|Q].
    - destruct (deposit _ _ _ _) as [[[b1 e1] a1]|]; [|discriminate]. destruct (withdraw_without_fee _ _ _ _) as [[[b2 o1] a2]|]; [|discriminate].
      destruct (adjust_token_balance _ _ _ _) as [hc1|] eqn:Ea; [|discriminate]. apply some_inj in Em. apply pair_equal_spec in Em as [_ <-].
      destruct (adjust_spec _ _ _ _ _ _ Ea EB) as (i & Pi & G1 & G2 & G3 & G4 & G5). rewrite Ek in Pi. apply some_inj in Pi. subst i.
      do 5 (split; [assumption|]). intros B1 EB1. destruct (adjust_maint _ _ _ _ _ _ Ea EB1) as (i & Pi & K1 & K2 & _). rewrite Ek in Pi. apply some_inj in Pi. subst i. auto.
    - apply some_inj in Em. apply pair_equal_spec in Em as [_ <-]. assert (Q0 : ln_settled r = 0) by lia. rewrite Q0. change (- 0) with 0.
      rewrite add_at_zero. do 5 (split; [auto|]). intros B1 EB1. rewrite add_at_zero. auto. }
  destruct A as (A1 & A2 & A3 & A4 & A5 & A6).
  destruct (recompute_spec _ _ _ _ _ _ _ ip pi k' Ec A1) as (R1 & R2 & R3); [rewrite A4, M1; exact Op1|rewrite A4; exact Op2|reflexivity|rewrite A5; exact Ek|].
  cbn [pi new_pinfo pi_prices] in R1. fold pi in R1.
  assert (HP : hupnl pi HLiqEnd = after_funding (ns_mk s) (ns_ee s)) by (apply hupnl_no_base; assumption).
  set (pi' := new_pinfo _ _ _ _ _ _ _ _) in R1.
  assert (HP' : forall ty, hupnl pi' ty = p_quote (ln_liqee r)) by (intros ty; rewrite <- AF; apply hupnl_no_base; try congruence; rewrite AF; exact QN).
  rewrite HP, HP', add_at_twice, QE in R1.
  match type of R1 with _ = Some (add_at B k' ?x) => replace x with (ln_ins_liab r + ln_soc r) in R1 by lia end.
  assert (NR2 : no_reserved hc2) by (unfold no_reserved; rewrite R3, A3; exact NR).
  destruct (health_no_reserved _ _ _ NR Hh) as (B0 & E0 & H0). rewrite EB in E0. apply some_inj in E0. subst B0.
  destruct (health_no_reserved _ _ _ NR2 Hh') as (B2 & E5 & H2). rewrite R1 in E5. apply some_inj in E5. subst B2.
  pose proof (balances_spec _ _ _ _ EB) as (LB & _). destruct (token_pos_lt _ _ _ Ek) as [Lk _].
  rewrite R2, A2 in H2. rewrite (contributions_add_at _ _ _ _ _ _ Et) in H2 by lia.
  exists ms, fh, (nth k' B 0). constructor; cbn [ns_ee ns_mk ns_or ns_vault ns_flag ns_cache]; try assumption.
  - auto.
  - assert (fmul (ne_sprice e) (ne_aw e) = asset_wp t' HLiqEnd /\ fmul (ne_sprice e) (ne_lw e) = liab_wp t' HLiqEnd) as [Q1 Q2].
    { unfold asset_wp, liab_wp. cbn [asset_weight liab_weight asset_price liab_price]. rewrite W1, W2, W3. unfold fmul. split; f_equal; ring. }
    rewrite Q1, Q2 in Ef. destruct (bankruptcy_reached _ _ _ _ _ _ _ _); [exact Ef|]. congruence.
  - auto 6.
  - auto.
  - rewrite H2, <- H0. lia.
  - intros g g' Hg G'. unfold settle_health in *. cbn [ns_cache] in G'. unfold perp_max_settle in Ems. destruct (balances (ns_cache s) HMaint true) as [B1|] eqn:EB1; [|discriminate].
    rewrite Hg, Ek, Et in Ems. exists (nth k' B1 0). split; [exact Ems|]. destruct (A6 _ eq_refl) as [A7 A8].
    assert (B7 : balances hc2 HMaint true = Some (add_at B1 k' (- ln_settled r))).
    { unfold recompute_perp in Ec. rewrite A4, M1, Op1 in Ec. apply some_inj in Ec. subst hc2. unfold balances in *. cbn [hc_tokens hc_perps].
      rewrite (perp_balances_ignored _ _ _ pi); [rewrite A4 in A7; exact A7|exact Op2|reflexivity|unfold pi; rewrite hupnl_no_base by assumption; exact F6|].
      change (hupnl pi' HMaint <= 0). rewrite HP'. exact QN. }
    rewrite B7 in G'. apply sum_no_reserved in Hg; [|exact NR]. subst g.
    apply sum_no_reserved in G'; [|exact NR2]. rewrite G', R2, A8.
    pose proof (balances_spec _ _ _ _ EB1) as (LB1 & _). rewrite (contributions_add_at _ _ _ _ _ _ Et) by lia. replace (nth k' B1 0 + - ln_settled r) with (nth k' B1 0 - ln_settled r) by lia. lia.
Qed.
