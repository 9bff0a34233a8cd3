(** C55, C56: amounts in the two perp liquidations. *)
From Coq Require Import List ZArith Lia Bool Arith.
From Verif Require Import OrderTree Keys Fixed BookSide EventQueue PerpTypes Book PerpSystem PerpSpec PerpFeeSpec
  SettleLimit SettleSpec SettleFacts PropSettle PerpMoney PerpMoneySpec PerpClaims PerpClaims2.
Import ListNotations.
Open Scope Z_scope.

(** The pnl of a position at a price, funding included *)
Definition pnl_of (mk : market) (p : position) (price : fx) : fx :=
  after_funding mk p + fmul (of_int (p_base p * mk_bls mk)) price.

Lemma limit_le p l mk c x : x < 0 -> - apply_pnl_settle_limit p l mk c x <= - x.
Proof.
  intros H. unfold apply_pnl_settle_limit. destruct (sc_m c <? 0); [lia|]. destruct (available_settle_limit p l mk c) as [mn mx].
  destruct (Z.ltb_spec x 0); lia.
Qed.

(** Liquidating negative pnl.  [max_liab]: the liqor's limit in native tokens, [cover]:
    what the insurance fund has, [pf] and [iprice]: the prices of a settle token (liquidation
    fee included) and of an insurance token.
    - only accounts with negative pnl, and never more than that pnl is taken from them;
    - the liqor takes over at most [max_liab];
    - only what health requires is taken over or socialized;
    - the fund never pays more than it has, pays the liqor at least what it takes over, and
      less than one native token more than that;
    - a loss is socialized only when the fund is exhausted, and only what no one took over. *)
Theorem C55_liq_negative : forall mk c pe le po price max_settle max_liab for_health sprice iprice liq_fee cover now r,
  0 <= cover -> 0 < iprice -> 0 < fmul sprice (fone + liq_fee) -> 0 <= max_liab ->
  liq_negative mk c pe le po price max_settle max_liab for_health sprice iprice liq_fee cover now = Some r ->
  let pf := fmul sprice (fone + liq_fee) in
  pnl_of mk pe price < 0 /\
  0 <= ln_settled r /\ 0 <= ln_ins_liab r /\ 0 <= ln_soc r /\
  ln_settled r + ln_ins_liab r + ln_soc r <= - pnl_of mk pe price /\
  ln_settled r + ln_ins_liab r <= of_int max_liab /\
  ln_settled r <= Z.max max_settle 0 /\
  ln_ins_liab r + ln_soc r <= Z.max for_health 0 /\
  0 <= ln_ins r <= cover /\
  ln_ins_liab r * pf <= of_int (ln_ins r) * iprice /\
  of_int (ln_ins r - 1) * iprice < (ln_ins_liab r + 1) * pf /\
  (0 < ln_soc r -> ln_ins r = cover) /\
  (ln_ins r < cover -> ln_soc r = 0).
Proof.
  intros mk c pe le po price ms ml fh sp ip lf cover now r Hcov Hip Hpf Hml. unfold liq_negative.
  assert (P0 : unsettled_pnl (settle_funding pe mk) mk price = pnl_of mk pe price).
  { unfold unsettled_pnl, pnl_of, after_funding, settle_funding. cbn [p_quote p_base]. rewrite owed_unsettled. reflexivity. }
  cbv zeta. rewrite P0. set (pnl0 := pnl_of mk pe price) in *. destruct (Z.ltb_spec pnl0 0) as [Hneg|]; cbn [negb]; [|discriminate].
  destruct (update_settle_limit le c now) as [l|]; [|discriminate].
  set (E0 := settle_funding pe mk) in *. set (O0 := settle_funding po mk).
  pose proof (limit_le E0 l mk c _ Hneg) as HL. set (able := apply_pnl_settle_limit E0 l mk c pnl0) in *. clearbody able.
  set (me := Z.max (Z.min ms (- able)) 0). set (s := Z.max (Z.min me (of_int ml)) 0).
  assert (Hs : 0 <= s /\ s <= - pnl0 /\ s <= Z.max ms 0 /\ s <= of_int ml).
  { assert (0 <= of_int ml) by (unfold of_int; pose proof fone_pos; nia). unfold s, me. lia. }
  clearbody s me. destruct Hs as (S0 & S1 & S2 & S3).
  set (T := if 0 <? s then let '(pe0, le0) := record_settle E0 l mk c (- s) in (pe0, le0, record_liquidation_quote_change O0 (- s)) else (E0, l, O0)).
  assert (HT : unsettled_pnl (fst (fst T)) mk price = pnl0 + s).
  { unfold T. destruct (Z.ltb_spec 0 s).
    - pose proof (record_settle_base E0 l mk c (- s)) as (B0 & B & _). destruct (record_settle _ _ _ _ _) as [e1 l1]. cbn [fst snd] in *.
      rewrite <- P0. unfold unsettled_pnl. rewrite B0, B. lia.
    - cbn [fst snd]. lia. }
  destruct T as [[e1 l1] o1]. cbn [fst snd] in HT. rewrite HT. clear HT P0. clearbody E0 O0 pnl0.
  pose proof fone_pos as Hf.
  set (pf := fmul sp (fone + lf)) in *. clearbody pf.
  match goal with |- (if ?b then _ else _) = _ -> _ => destruct b eqn:Eb end.
  2:{ intros X. apply some_inj in X; subst r. cbn [ln_settled ln_ins ln_ins_liab ln_soc]. unfold of_int. rewrite !Z.add_0_r.
      assert (0 < fone * ip) by nia. unfold of_int in S3. repeat (split; [lia|]). lia. }
  apply andb_true_iff in Eb as [_ Eb]. apply Z.ltb_lt in Eb.
  set (fl := Z.max (Z.min (- (pnl0 + s)) fh) 0). set (tl := Z.max (Z.min fl (of_int ml - s)) 0).
  assert (Htl : 0 <= tl /\ tl <= fl /\ tl <= of_int ml - s /\ fl <= - (pnl0 + s) /\ fl <= Z.max fh 0) by (unfold tl, fl; lia). clearbody fl tl.
  destruct Htl as (L1 & L2 & L3 & L4 & L5).
  destruct (Z.eqb_spec ip 0); [lia|]. destruct (Z.eqb_spec pf 0); [lia|]. cbn [orb].
  set (v := fdiv (fmul tl pf) ip). set (want := ceil_int v).
  assert (Hv : 0 <= fmul tl pf) by (apply fmul_nonneg; lia).
  pose proof (fdiv_pos_bounds _ _ Hv Hip) as V1. fold v in V1. pose proof (fmul_bounds tl pf) as V2.
  pose proof (ceil_int_bounds v) as V3. fold want in V3. unfold of_int in V3. clearbody v.
  assert (W : (want - 1) * fone * ip < tl * pf + pf).
  { assert ((want - 1) * fone * ip < v * ip) by (apply Z.mul_lt_mono_pos_r; lia). lia. }
  destruct (Z.ltb_spec want 0) as [|Hw]; [discriminate|]. clearbody want. clear V1 V2 V3 v.
  set (ins := Z.min want cover). set (u := fdiv (fmul (of_int ins) ip) pf). set (il := Z.min u tl).
  assert (I1 : 0 <= ins <= cover /\ ins <= want) by (unfold ins; lia).
  assert (U : 0 <= u /\ u * pf <= ins * ip * fone < u * pf + pf).
  { unfold u. rewrite fmul_int_l. split; [apply fdiv_nonneg; nia|apply fdiv_pos_bounds; nia]. }
  assert (IL : 0 <= il <= tl /\ il * pf <= ins * fone * ip /\ (ins - 1) * fone * ip < (il + 1) * pf).
  { unfold il. destruct (Z.min_spec u tl) as [[Q ->]|[Q ->]]; (split; [lia|]); (split; [nia|]).
    - assert (0 <= fone * ip) by nia. nia.
    - assert ((ins - 1) * (fone * ip) <= (want - 1) * (fone * ip)) by (apply Z.mul_le_mono_nonneg_r; nia). nia. }
  destruct IL as (IL1 & IL2 & IL3).
  assert (EC : (ins =? cover) = true -> ins = cover) by apply Z.eqb_eq. clearbody il. clearbody ins. clear U u W.
  set (T := if 0 <? ins then let '(pe0, le0) := record_settle e1 l1 mk c (- il) in (pe0, le0, record_liquidation_quote_change o1 (- il)) else (e1, l1, o1)).
  clearbody T. destruct T as [[e2 l2] o2].
  destruct ((ins =? cover) && (0 <? fl - il)) eqn:Ec.
  - apply andb_true_iff in Ec as [Ec Ed]. apply Z.ltb_lt in Ed. specialize (EC Ec).
    destruct (socialize_loss mk (- (fl - il))) as [[mk' sx]|]; [|discriminate]. destruct (record_settle _ _ _ _ _) as [e3 l3].
    intros X. apply some_inj in X; subst r. cbn [ln_settled ln_ins ln_ins_liab ln_soc]. unfold of_int in *.
    assert (0 < fone * ip) by nia. repeat (split; [lia|]). lia.
  - intros X. apply some_inj in X; subst r. cbn [ln_settled ln_ins ln_ins_liab ln_soc]. unfold of_int in *.
    assert (0 < fone * ip) by nia. repeat (split; [lia|]). lia.
Qed.
Print Assumptions C55_liq_negative.

(** Liquidating a base position.  [reduction] lots and [transfer] of positive pnl move.
    - the liqee has no unprocessed fills;
    - its base position shrinks by exactly [reduction], never past zero, and the liqor
      takes exactly these lots;
    - the liqor pays (or gets) the notional less (or plus) the liquidation fee, the liqee
      also pays the platform fee, which the market accrues and which is never negative;
    - pnl moves from liqee to liqor, against [transfer] less the pnl fee in tokens. *)
Theorem C56_liq_base : forall mk c pe le po lo price reduction transfer liq_fee plat_fee pnl_fee now r,
  0 <= mk_bls mk -> 0 <= price -> 0 <= plat_fee ->
  liq_base mk c pe le po lo price reduction transfer liq_fee plat_fee pnl_fee now = Some r ->
  let notional := reduction * mk_bls mk * price in
  let sign := if 0 <? p_base pe then 1 else -1 in
  p_taker_base pe = 0 /\ p_taker_quote pe = 0 /\
  0 <= reduction <= Z.abs (p_base pe) /\ 0 <= transfer /\
  p_base (lb_liqee r) = p_base pe - sign * reduction /\
  Z.abs (p_base (lb_liqee r)) = Z.abs (p_base pe) - reduction /\
  p_base (lb_liqor r) = p_base po + sign * reduction /\
  lb_quote_o r = fmul (- sign * notional) (fone - sign * liq_fee) /\
  lb_quote_e r = fmul (sign * notional) (fone - sign * (liq_fee + plat_fee)) /\
  p_quote (lb_liqee r) = after_funding mk pe + lb_quote_e r - transfer /\
  p_quote (lb_liqor r) = after_funding mk po + lb_quote_o r + transfer /\
  0 <= lb_fee r /\ lb_fee r + lb_quote_e r + lb_quote_o r = 0 /\
  mk_fees_accrued (lb_market r) = mk_fees_accrued mk + lb_fee r /\
  lb_token r = fmul transfer (fone - pnl_fee) /\
  (* open interest changes by what both positions change *)
  mk_open_interest (lb_market r) = mk_open_interest mk
    + (Z.abs (p_base (lb_liqee r)) - Z.abs (p_base pe)) + (Z.abs (p_base (lb_liqor r)) - Z.abs (p_base po)).
Proof.
  intros mk c pe le po lo price red tr lf pf pnlf now r Hb Hp Hpf H.
  pose proof (lb_amounts _ _ _ _ _ _ _ _ _ _ _ _ _ _ Hb Hp Hpf H) as [F1 F2 F3 (_ & _ & F4 & _)]. revert H. unfold liq_base. cbv zeta.
  destruct (Z.eqb_spec (p_taker_base pe) 0) as [T1|]; [|discriminate]. destruct (Z.eqb_spec (p_taker_quote pe) 0) as [T2|]; [|discriminate]. cbn [andb negb].
  set (E0 := settle_funding pe mk). set (O0 := settle_funding po mk).
  assert (BE : p_base E0 = p_base pe) by reflexivity. assert (BO : p_base O0 = p_base po) by reflexivity.
  destruct (update_settle_limit le c now) as [l|]; [|discriminate].
  match goal with |- (if ?b then _ else _) = _ -> _ => destruct b eqn:Eg; [discriminate|] end.
  apply orb_false_iff in Eg as [Eg Et]. apply negb_false_iff, andb_true_iff in Eg as [R1 R2]. apply Z.leb_le in R1, R2. apply Z.ltb_ge in Et.
  rewrite BE in *. clearbody E0 O0.
  set (per := fmul (of_int (mk_bls mk)) price). assert (Hper : per = mk_bls mk * price) by (unfold per; apply fmul_int_l). clearbody per.
  set (base := if 0 <? p_base pe then - red else red).
  set (q := fmul (- of_int base) per). assert (Hq : q = - base * per) by (unfold q; rewrite <- of_int_opp, fmul_int_l; reflexivity). clearbody q.
  set (fl := if 0 <? p_base pe then fone - lf else fone + lf). set (fa := if 0 <? p_base pe then fl - pf else fl + pf).
  set (sg := if 0 <? p_base pe then 1 else -1).
  assert (Hbase : base = - sg * red) by (unfold base, sg; destruct (0 <? p_base pe); lia).
  assert (HQ : q = sg * (red * mk_bls mk * price)) by (rewrite Hq, Hbase, Hper; ring).
  assert (Hfl : fl = fone - sg * lf) by (unfold fl, sg; destruct (0 <? p_base pe); lia).
  assert (Hfa : fa = fone - sg * (lf + pf)) by (unfold fa, fl, sg; destruct (0 <? p_base pe); lia).
  assert (Habs : Z.abs (p_base pe - sg * red) = Z.abs (p_base pe) - red).
  { unfold sg. destruct (Z.ltb_spec 0 (p_base pe)); lia. }
  assert (Hqo : fmul (- q) fl = fmul (- sg * (red * mk_bls mk * price)) (fone - sg * lf)) by (rewrite HQ, Hfl; f_equal; ring).
  assert (Hqe : fmul q fa = fmul (sg * (red * mk_bls mk * price)) (fone - sg * (lf + pf))) by (rewrite HQ, Hfa; reflexivity).
  clearbody fl fa base. rewrite Hqo, Hqe. set (qo := fmul (- sg * _) _) in *. set (qe := fmul (sg * _) _) in *.
  clearbody qo qe. clearbody sg.
  assert (T : exists e1 mk1, (if base =? 0 then (E0, mk) else record_trade E0 mk base qe) = (e1, mk1) /\ p_base e1 = p_base pe + base /\
     mk_open_interest mk1 = mk_open_interest mk + (Z.abs (p_base e1) - Z.abs (p_base pe)) /\ p_oneshot e1 = p_oneshot E0).
  { destruct (Z.eqb_spec base 0) as [Z0|]; eexists _, _; (split; [reflexivity|]); cbn [record_trade p_base with_oi mk_open_interest p_oneshot]; rewrite ?BE; repeat split; lia. }
  destruct T as (e1 & mk1 & -> & B1 & O1 & _).
  assert (T : exists o2 mk2, (if base =? 0 then (O0, mk1) else record_trade O0 mk1 (- base) qo) = (o2, mk2) /\ p_base o2 = p_base po - base /\
     mk_open_interest mk2 = mk_open_interest mk1 + (Z.abs (p_base o2) - Z.abs (p_base po))).
  { destruct (Z.eqb_spec base 0) as [Z0|]; eexists _, _; (split; [reflexivity|]); cbn [record_trade p_base with_oi mk_open_interest]; rewrite ?BO; repeat split; lia. }
  destruct T as (o2 & mk2 & -> & B2 & O2).
  set (mk3 := with_fees mk2 _). assert (O3 : mk_open_interest mk3 = mk_open_interest mk2) by reflexivity.
  assert (N : forall x y z w u, p_base x = p_base e1 -> p_base y = p_base o2 -> w = fmul tr (fone - pnlf) ->
     r = mkLB base qe qo (Z.max (- qo - qe) 0) w u x y -> u = mk3 -> z = 0 -> 
     p_taker_base pe = 0 /\ p_taker_quote pe = 0 /\ 0 <= red <= Z.abs (p_base pe) /\ 0 <= tr /\
     p_base (lb_liqee r) = p_base pe - sg * red /\ Z.abs (p_base (lb_liqee r)) = Z.abs (p_base pe) - red /\
     p_base (lb_liqor r) = p_base po + sg * red /\ lb_quote_o r = qo /\ lb_quote_e r = qe /\
     p_quote (lb_liqee r) = after_funding mk pe + lb_quote_e r - tr /\ p_quote (lb_liqor r) = after_funding mk po + lb_quote_o r + tr /\
     0 <= lb_fee r /\ lb_fee r + lb_quote_e r + lb_quote_o r = 0 /\
     mk_fees_accrued (lb_market r) = mk_fees_accrued mk + lb_fee r /\ lb_token r = fmul tr (fone - pnlf) /\
     mk_open_interest (lb_market r) = mk_open_interest mk
       + (Z.abs (p_base (lb_liqee r)) - Z.abs (p_base pe)) + (Z.abs (p_base (lb_liqor r)) - Z.abs (p_base po))).
  { intros x y z w u X1 X2 X3 Hr Hu _. unfold after_funding. rewrite F1, F2, F4. subst u.
    subst r. cbn [lb_liqee lb_liqor lb_quote_e lb_quote_o lb_fee lb_market lb_token] in *.
    assert (p_base x = p_base pe - sg * red) by lia. assert (p_base y = p_base po + sg * red) by lia.
    split; [exact T1|]. split; [exact T2|]. split; [lia|]. split; [lia|]. split; [assumption|]. split; [congruence|].
    split; [assumption|]. split; [reflexivity|]. split; [reflexivity|]. split; [lia|]. split; [lia|]. split; [lia|]. split; [lia|]. split; [reflexivity|].
    split; [assumption|]. rewrite O3, O2, O1, X1, X2. lia. }
  destruct (Z.ltb_spec 0 tr).
  - destruct (takeover_limits _ _ _ _) as [x1 x2]. unfold record_liquidation_pnl_takeover.
    pose proof (record_settle_base e1 l mk3 c tr) as (B & _). destruct (record_settle e1 l mk3 c tr) as [e3 l3]. cbn [fst] in B.
    intros X. apply some_inj in X. symmetry in X. eapply N; [exact B| |reflexivity|exact X|reflexivity|reflexivity]. reflexivity.
  - intros X. apply some_inj in X. symmetry in X. eapply N; [reflexivity|reflexivity| |exact X|reflexivity|reflexivity].
    replace tr with 0 by lia. symmetry. apply fmul_0_l.
Qed.
Print Assumptions C56_liq_base.

(** 100 owed: 20 are settled from the liqee's tokens, the fund pays 33 tokens for 30 more
    (10% fee), the remaining 50 are socialized *)
Definition ex_lmk : market := mkMarket 0 0 1 1 0 0 0 0 1000 0 0 fone fone.
Definition ex_lc : scfg := mkSC 1 2 (fone / 4) 3600 (of_int 2) (of_int 3) (of_int 100) (fone / 100).
Example C55_example :
  exists r, liq_negative ex_lmk ex_lc (mkPos 0 (of_int (- 100)) 0 0 0 0 0 0 (of_int (- 25))) lim0 (mkPos 0 0 0 0 0 0 0 0 0)
    fone (of_int 20) 1000 (of_int 200) fone fone (fone / 10) 33 50 = Some r /\
    0 < fmul fone (fone + fone / 10) /\
    ln_settled r = of_int 20 /\ ln_ins r = 33 /\ Z.abs (ln_ins_liab r - of_int 30) < 100 /\ Z.abs (ln_soc r - of_int 50) < 100 /\
    mk_long_funding (ln_market r) = fone / 20.
Proof. eexists. split; [vm_compute; reflexivity|]. split; [reflexivity|]. split; [vm_compute; reflexivity|]. split; [vm_compute; reflexivity|]. split; [vm_compute; reflexivity|]. split; vm_compute; reflexivity. Qed.
(** a long of 100 lots is reduced by 40, and 10 of its pnl are taken over *)
Example C56_example :
  exists r, liq_base ex_lmk ex_lc (mkPos 100 (of_int (- 150)) 0 0 0 0 0 0 (of_int 25)) lim0 (mkPos (- 7) 0 0 0 0 0 0 0 0) lim0
    (of_int 2) 40 (of_int 10) (fone / 20) (fone / 100) (fone / 50) 50 = Some r /\
    p_base (lb_liqee r) = 60 /\ p_base (lb_liqor r) = 33 /\ Z.abs (lb_quote_e r - 752 * fone / 10) < 1000 /\ Z.abs (lb_quote_o r + of_int 76) < 1000 /\
    Z.abs (lb_fee r - 8 * fone / 10) < 1000 /\ Z.abs (lb_token r - 98 * fone / 10) < 1000.
Proof. eexists. split; [vm_compute; reflexivity|]. split; [reflexivity|]. split; [vm_compute; reflexivity|]. split; [vm_compute; reflexivity|]. split; [vm_compute; reflexivity|]. split; vm_compute; reflexivity. Qed.
