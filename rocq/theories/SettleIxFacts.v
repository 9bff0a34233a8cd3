(** Facts about the whole perp_settle_pnl instruction. *)
From Coq Require Import List ZArith Lia Bool Arith.
From Verif Require Import OrderTree Keys PerpTypes SettleLimit SettleSpec SettleFacts PropSettle Interest InterestFacts Bank BankSpec BankFacts BankInv BankResults Health HealthSpec HealthDiv HealthFacts HealthMore HealthSkip LiqState
  TokenLiq TokenLiqSpec TokenLiqFacts SerumCache PerpLiqBase PerpLiqBaseSpec PerpLiqBaseFacts PerpLiqBaseIx PerpLiqNegSpec PerpLiqNegFacts PropPerpLiqNeg Scaling ScalingFacts TokenMove TokenMoveFacts PropTokenMove SettleIx Fixed.
Import ListNotations.
Open Scope Z_scope.

(** health with or without negative perp positions *)
Definition health_of (hc : cache) (ty : htype) (ign : bool) : option fx :=
  match balances hc ty ign with None => None | Some B => health_sum hc ty B end.
Definition counted (ign : bool) (ty : htype) (pi : pinfo) : fx := if negb ign || (0 <? hupnl pi ty) then hupnl pi ty else 0.
Definition token_bal (ign : bool) (P : list pinfo) (ty : htype) (t : tinfo) : fx :=
  ti_spot t + sum (map (fun pi => if pi_settle pi =? ti_index t then counted ign ty pi else 0) P).
Lemma balances_map_ign hc ty ign B : NoDup (map ti_index (hc_tokens hc)) -> balances hc ty ign = Some B ->
  B = map (token_bal ign (hc_perps hc) ty) (hc_tokens hc).
Proof.
  intros N H. apply balances_spec in H as (L & H & F). apply (nth_ext _ _ 0 0); [rewrite map_length; exact L|]. intros j Hj. rewrite L in Hj. rewrite H.
  destruct (nth_error (hc_tokens hc) j) as [t|] eqn:E; [|apply nth_error_None in E; lia].
  assert (X1 : nth j (map ti_spot (hc_tokens hc)) 0 = ti_spot t) by (apply nth_error_nth; rewrite nth_error_map, E; reflexivity).
  assert (X2 : nth j (map (token_bal ign (hc_perps hc) ty) (hc_tokens hc)) 0 = token_bal ign (hc_perps hc) ty t) by (apply nth_error_nth; rewrite nth_error_map, E; reflexivity).
  rewrite X1, X2. unfold token_bal, perp_part. f_equal. f_equal. apply map_ext_in. intros pi Hpi. rewrite Forall_forall in F. specialize (F _ Hpi).
  destruct (token_pos (hc_tokens hc) (pi_settle pi)) as [i|] eqn:Ei; [|congruence]. unfold counted.
  destruct (Z.eqb_spec (pi_settle pi) (ti_index t)) as [Es|Es].
  - rewrite Es, (token_pos_nth _ N _ _ E) in Ei. apply some_inj in Ei; subst i. rewrite Nat.eqb_refl. reflexivity.
  - destruct (Nat.eqb_spec i j) as [->|]; [|reflexivity]. apply token_pos_lt in Ei as (_ & u & Eu & Hu). congruence.
Qed.
Lemma plain_health_ign hc ty ign h : no_reserved hc -> NoDup (map ti_index (hc_tokens hc)) -> health_of hc ty ign = Some h ->
  h = sum (map (fun t => contribution t ty (token_bal ign (hc_perps hc) ty t)) (hc_tokens hc)).
Proof.
  intros R N H. unfold health_of in H. destruct (balances hc ty ign) as [B|] eqn:HB; [|discriminate]. apply balances_map_ign in HB; [|exact N].
  assert (HB' : health_sum hc ty B = Some (sum (token_contributions (hc_tokens hc) ty B))).
  { unfold health_sum in *. destruct (serum_contributions hc ty B) as [C|] eqn:EC; [|discriminate]. f_equal. rewrite (no_reserved_sum _ _ _ _ R EC). lia. }
  rewrite HB' in H. apply some_inj in H. subst h B. rewrite contributions_map. reflexivity.
Qed.

(** ** the perp positions *)
Lemma perp_sum_other e p p' P idx ign ty : idx <> wc_index (xe_cfg e) ->
  sum (map (fun pi => if pi_settle pi =? idx then counted ign ty pi else 0) (perps_with e p' P)) = sum (map (fun pi => if pi_settle pi =? idx then counted ign ty pi else 0) (perps_with e p P)).
Proof.
  intros N. f_equal. unfold perps_with. rewrite !map_map. apply map_ext. intros pi. destruct (pi_market pi =? mk_index (xe_mk e)); [|reflexivity].
  change (pi_settle (perp_info e p' (pi_prices pi))) with (wc_index (xe_cfg e)). change (pi_settle (perp_info e p (pi_prices pi))) with (wc_index (xe_cfg e)).
  destruct (Z.eqb_spec (wc_index (xe_cfg e)) idx); [congruence|reflexivity].
Qed.
Lemma perps_absent e p P : ~ In (mk_index (xe_mk e)) (map pi_market P) -> perps_with e p P = P.
Proof.
  induction P as [|pi P IH]; intros H; [reflexivity|]. cbn [map In] in H. unfold perps_with in *. cbn [map]. rewrite IH by tauto. destruct (Z.eqb_spec (pi_market pi) (mk_index (xe_mk e))); [tauto|reflexivity].
Qed.
Lemma perp_sum_settle e P : NoDup (map pi_market P) -> In (mk_index (xe_mk e)) (map pi_market P) ->
  exists pi, In pi P /\ pi_market pi = mk_index (xe_mk e) /\ forall p p' ign ty,
    let S q := sum (map (fun pi => if pi_settle pi =? wc_index (xe_cfg e) then counted ign ty pi else 0) (perps_with e q P)) in
    S p' = S p + (counted ign ty (perp_info e p' (pi_prices pi)) - counted ign ty (perp_info e p (pi_prices pi))).
Proof.
  induction P as [|pi P IH]; intros ND I; [destruct I|]. cbn [map] in ND. inversion ND as [|? ? NI ND']; subst.
  destruct (Z.eq_dec (pi_market pi) (mk_index (xe_mk e))) as [E|E].
  - exists pi. split; [left; reflexivity|]. split; [exact E|]. intros p p' ign ty. cbv beta zeta.
    assert (X : forall q, perps_with e q (pi :: P) = perp_info e q (pi_prices pi) :: P).
    { intros q. rewrite E in NI. pose proof (perps_absent e q P NI) as Q. unfold perps_with in *. cbn [map]. rewrite Q, E, Z.eqb_refl. reflexivity. }
    rewrite !X. cbn [map]. rewrite !sum_cons. change (pi_settle (perp_info e p' (pi_prices pi))) with (wc_index (xe_cfg e)). change (pi_settle (perp_info e p (pi_prices pi))) with (wc_index (xe_cfg e)).
    rewrite Z.eqb_refl. lia.
  - cbn [map In] in I. destruct I as [I|I]; [contradiction|]. destruct (IH ND' I) as (q & Q1 & Q2 & Q3). exists q. split; [right; exact Q1|]. split; [exact Q2|]. intros p p' ign ty. cbv beta zeta.
    specialize (Q3 p p' ign ty). cbv beta zeta in Q3. unfold perps_with in *. cbn [map]. rewrite !sum_cons. apply Z.eqb_neq in E. rewrite E. lia.
Qed.

(** ** the token positions *)
Lemma pw_again c b p b' p' L L1 : positions_with c b p L = Some L1 -> positions_with c b' p' L1 = positions_with c b' p' L.
Proof.
  revert L1. induction L as [|q L IH]; intros L1 H; cbn [positions_with] in H; [apply some_inj in H; subst; reflexivity|].
  destruct (positions_with c b p L) as [R|]; [|discriminate]. specialize (IH R eq_refl). destruct (Z.eqb_spec (ti_index (pin_info q)) (wc_index c)) as [E|E].
  - unfold token_info in H. destruct (scaled_init_asset_weight c b _); [|discriminate]. destruct (scaled_init_liab_weight c b _); [|discriminate]. apply some_inj in H. subst L1.
    cbn [positions_with pin_info ti_index ti_prices pin_available pin_oracle_ok]. rewrite IH, E, Z.eqb_refl. reflexivity.
  - apply some_inj in H. subst L1. cbn [positions_with]. rewrite IH. apply Z.eqb_neq in E. rewrite E. reflexivity.
Qed.
Lemma pw_weights c b p L L' q : positions_with c b p L = Some L' -> In q L -> ti_index (pin_info q) = wc_index c ->
  exists w, scaled_init_asset_weight c b (liab_price (ti_prices (pin_info q)) HInit) = Some (fst w) /\ scaled_init_liab_weight c b (liab_price (ti_prices (pin_info q)) HInit) = Some (snd w).
Proof.
  revert L'. induction L as [|a L IH]; intros L' S Iq E; [destruct Iq|]. cbn [positions_with] in S. destruct (positions_with _ _ _ L) as [RR|]; [|discriminate]. destruct Iq as [->|Iq]; [|eapply IH; [reflexivity|exact Iq|exact E]].
  rewrite E, Z.eqb_refl in S. unfold token_info in S. destruct (scaled_init_asset_weight _ _ _) as [aw|]; [|discriminate]. destruct (scaled_init_liab_weight _ _ _) as [lw|]; [|discriminate]. exists (aw, lw). auto.
Qed.
Lemma same_q L q q' : NoDup (pos_ids L) -> In q L -> In q' L -> ti_index (pin_info q') = ti_index (pin_info q) -> q' = q.
Proof.
  intros ND Iq I' E. induction L as [|a L IH]; [destruct Iq|]. unfold pos_ids in *. cbn [map] in ND. inversion ND as [|? ? NI ND']; subst.
  destruct Iq as [<-|Iq], I' as [<-|I']; [reflexivity| | |apply IH; assumption]; exfalso; apply NI; apply in_map_iff; [exists q'|exists q]; (split; [congruence|assumption]).
Qed.
(** weights do not depend on the totals of the bank *)
Definition fixed_weights (c : wcfg) (ty : htype) : Prop := ty <> HInit \/ wc_dep_start c = None /\ wc_bor_start c = None.
Record changed (e : senv) (x : sacct) (p' : position) (d : fx) (hc hc' : cache) : Prop := {
  ch_serum : hc_serum hc' = hc_serum hc;
  ch_perps : hc_perps hc = perps_with e (sa_perp x) (sa_P x) /\ hc_perps hc' = perps_with e p' (sa_P x);
  ch_nodup : NoDup (map ti_index (hc_tokens hc));
  ch_tok : exists k t w, nth_error (hc_tokens hc) k = Some t /\ ti_index t = wc_index (xe_cfg e) /\ hc_tokens hc' = update_nth (hc_tokens hc) k (bump d w) /\
    (forall ty bal, fixed_weights (xe_cfg e) ty -> contribution (bump d w t) ty bal = contribution t ty bal) }.
Lemma cache_change e b b' x pl t' hc hc' : NoDup (pos_ids (sa_L x)) -> In (wc_index (xe_cfg e)) (pos_ids (sa_L x)) ->
  acct_cache e b x = Some hc -> acct_cache e b' (with_settled x pl t') = Some hc' ->
  changed e x (fst pl) (native b' t' - native b (sa_tok x)) hc hc'.
Proof.
  intros ND IN H H'. unfold acct_cache in *. cbn [with_settled sa_tok sa_L sa_O sa_P sa_perp] in H'.
  destruct (positions_with (xe_cfg e) b (sa_tok x) (sa_L x)) as [L1|] eqn:P1; [|discriminate]. destruct (positions_with (xe_cfg e) b' t' (sa_L x)) as [L2|] eqn:P2; [|discriminate].
  pose proof (pw_again _ _ _ b (sa_tok x) _ _ P1) as P3. rewrite P1 in P3. pose proof (pw_again _ _ _ b' t' _ _ P1) as P4. rewrite P2 in P4.
  pose proof (pw_map _ _ _ _ _ P1) as IX. assert (ND1 : NoDup (pos_ids L1)) by (unfold pos_ids in *; rewrite IX; exact ND). assert (IN1 : In (wc_index (xe_cfg e)) (pos_ids L1)) by (unfold pos_ids in *; rewrite IX; exact IN).
  apply in_map_iff in IN1 as (q & Eq & Iq). destruct (pw_weights _ _ _ _ _ q P4 Iq Eq) as (w & W).
  set (d := native b' t' - native b (sa_tok x)).
  assert (EL : L2 = map (pos_bump (wc_index (xe_cfg e)) d w (0 <=? t_ix t')) L1).
  { unfold d. eapply pw_bump; [exact ND1|exact P3|exact P4|]. intros q' I' E'. assert (q' = q) by (eapply same_q; [exact ND1|exact Iq|exact I'|congruence]). subst q'. exact W. }
  unfold build_cache in H, H'. destruct (build_tokens false L1) as [T|] eqn:BT; [|discriminate].
  destruct (build_serum false (sa_O x) T) as [[T' R]|] eqn:BS; [|discriminate]. cbn [andb] in H. apply some_inj in H.
  assert (EI : map ti_index T = pos_ids L1).
  { clear - BT. revert T BT. induction L1 as [|p L IH]; intros T BT; cbn [build_tokens andb] in BT; [apply some_inj in BT; subst; reflexivity|].
    destruct (pin_available p && pin_oracle_ok p); [|discriminate]. destruct (build_tokens false L) as [T0|]; [|discriminate]. apply some_inj in BT. subst T. unfold pos_ids in *. cbn [map]. rewrite (IH _ eq_refl). reflexivity. }
  assert (ET : map ti_index T' = pos_ids L1) by (rewrite (build_serum_idx _ _ _ _ _ BS); exact EI).
  destruct (token_pos T (wc_index (xe_cfg e))) as [k|] eqn:TP; [|exfalso; apply (token_pos_in T (wc_index (xe_cfg e))); [rewrite EI; apply in_map_iff; exists q; auto|exact TP]].
  rewrite EL, (build_tokens_bump false _ d w _ L1 ND1 T k BT TP), (build_serum_bump false d w k (sa_O x) T T' R BS) in H'. cbn [andb] in H'. apply some_inj in H'.
  assert (TP' : token_pos T' (wc_index (xe_cfg e)) = Some k).
  { clear - TP ET EI. assert (E : map ti_index T' = map ti_index T) by congruence. clear ET EI. revert T' k TP E. induction T as [|t T IH]; intros [|t' T'] k TP E; try discriminate.
    cbn [map] in E. injection E as E1 E2. cbn [token_pos] in *. rewrite E1. destruct (ti_index t =? _); [exact TP|]. destruct (token_pos T _) as [j|]; [|discriminate]. rewrite (IH _ j eq_refl E2). exact TP. }
  pose proof (token_pos_lt _ _ _ TP') as (_ & t & Nt & It).
  subst hc hc'. constructor; cbn [hc_serum hc_perps hc_tokens]; [reflexivity|split; reflexivity|rewrite ET; exact ND1|].
  exists k, t, w. split; [exact Nt|]. split; [exact It|]. split; [reflexivity|].
  intros ty bal [N|[D B]]; [destruct ty; [contradiction|reflexivity|reflexivity]|].
  assert (BC : build_cache false L1 (sa_O x) (perps_with e (sa_perp x) (sa_P x)) = Some (mkHC T' R (perps_with e (sa_perp x) (sa_P x)))) by (unfold build_cache; rewrite BT, BS; reflexivity).
  destruct (build_cache_is _ _ _ _ _ t BC (nth_error_In _ _ Nt)) as (q2 & y & I2 & E2).
  assert (q2 = q) by (eapply same_q; [exact ND1|exact Iq|exact I2|]; rewrite E2 in It; cbn [add_spot ti_index] in It; congruence). subst q2.
  assert (QW : ti_scaled_aw (pin_info q) = wc_init_aw (xe_cfg e) /\ ti_scaled_lw (pin_info q) = wc_init_lw (xe_cfg e)).
  { clear - P3 Iq Eq D B. set (p := sa_tok x) in *. clearbody p. assert (G : forall L L', positions_with (xe_cfg e) b p L = Some L' -> forall q, In q L' -> ti_index (pin_info q) = wc_index (xe_cfg e) -> ti_scaled_aw (pin_info q) = wc_init_aw (xe_cfg e) /\ ti_scaled_lw (pin_info q) = wc_init_lw (xe_cfg e)).
    { clear q L1 P3 Iq Eq. induction L as [|a L IH]; intros L' H q Iq Eq; cbn [positions_with] in H; [apply some_inj in H; subst; destruct Iq|]. destruct (positions_with _ _ _ L) as [R|]; [|discriminate]. specialize (IH R eq_refl).
      destruct (Z.eqb_spec (ti_index (pin_info a)) (wc_index (xe_cfg e))) as [Ea|Ea].
      - unfold token_info, scaled_init_asset_weight, scaled_init_liab_weight in H. rewrite D, B in H. apply some_inj in H. subst L'. destruct Iq as [<-|Iq]; [split; reflexivity|apply IH; assumption].
      - apply some_inj in H. subst L'. destruct Iq as [<-|Iq]; [contradiction|apply IH; assumption]. }
    eapply G; eassumption. }
  destruct W as [W1 W2]. unfold scaled_init_asset_weight in W1. unfold scaled_init_liab_weight in W2. rewrite D in W1. rewrite B in W2. apply some_inj in W1, W2. destruct QW as [Q1 Q2].
  assert (A1 : ti_scaled_aw t = fst w) by (rewrite E2; cbn [add_spot ti_scaled_aw]; congruence). assert (A2 : ti_scaled_lw t = snd w) by (rewrite E2; cbn [add_spot ti_scaled_lw]; congruence).
  destruct ty; [|reflexivity|reflexivity]. unfold contribution, asset_wp, liab_wp. cbn [asset_weight liab_weight bump set_spot ti_scaled_aw ti_scaled_lw ti_prices]. rewrite A1, A2. reflexivity.
Qed.

(** ** what it does to health *)
Lemma sum_change (f g : tinfo -> fx) F k t : forall T, NoDup (map ti_index T) -> nth_error T k = Some t -> (forall u, In u T -> ti_index u <> ti_index t -> g u = f u) ->
  sum (map g (update_nth T k F)) = sum (map f T) + (g (F t) - f t).
Proof.
  intros T. revert k. induction T as [|u T IH]; intros [|k] ND N E; cbn [nth_error] in N; try discriminate; cbn [map] in ND; inversion ND as [|? ? NI ND']; subst; cbn [update_nth map]; rewrite !sum_cons.
  - apply some_inj in N. subst u. assert (X : map g T = map f T).
    { apply map_ext_in. intros v Iv. apply E; [right; exact Iv|]. intros Q. apply NI. rewrite <- Q. apply in_map. exact Iv. }
    rewrite X. lia.
  - rewrite (IH k ND' N) by (intros v Iv; apply E; right; exact Iv). rewrite (E u); [lia|left; reflexivity|].
    intros Q. apply NI. rewrite Q. apply in_map. eapply nth_error_In, N.
Qed.
Lemma health_changed e x p' d hc hc' ty ign h h' : changed e x p' d hc hc' -> NoDup (map pi_market (sa_P x)) -> In (mk_index (xe_mk e)) (map pi_market (sa_P x)) ->
  no_reserved hc -> fixed_weights (xe_cfg e) ty -> health_of hc ty ign = Some h -> health_of hc' ty ign = Some h' ->
  exists pi t, In pi (sa_P x) /\ pi_market pi = mk_index (xe_mk e) /\ nth_info hc (wc_index (xe_cfg e)) <> None /\ (forall j u, nth_info hc (wc_index (xe_cfg e)) = Some (j, u) -> u = t) /\ In t (hc_tokens hc) /\
    let x0 := token_bal ign (hc_perps hc) ty t in
    let D := d + (counted ign ty (perp_info e p' (pi_prices pi)) - counted ign ty (perp_info e (sa_perp x) (pi_prices pi))) in
    h' = h + (contribution t ty (x0 + D) - contribution t ty x0).
Proof.
  intros [CS [CP CP'] CN (k & t & w & Nt & It & CT & CC)] NDP INP NR FW H H'. destruct (perp_sum_settle e (sa_P x) NDP INP) as (pi & Ipi & Mpi & PS).
  exists pi, t. split; [exact Ipi|]. split; [exact Mpi|].
  assert (TP : token_pos (hc_tokens hc) (wc_index (xe_cfg e)) = Some k) by (rewrite <- It; apply token_pos_nth; assumption).
  assert (NI : nth_info hc (wc_index (xe_cfg e)) = Some (k, t)) by (unfold nth_info; rewrite TP, Nt; reflexivity).
  split; [rewrite NI; discriminate|]. split; [intros j u Q; rewrite NI in Q; apply some_inj in Q; congruence|]. split; [eapply nth_error_In, Nt|]. cbv zeta.
  assert (NR' : no_reserved hc') by (unfold no_reserved in *; rewrite CS; exact NR).
  assert (IX : map ti_index (hc_tokens hc') = map ti_index (hc_tokens hc)) by (rewrite CT; apply update_nth_map; intros; reflexivity).
  apply plain_health_ign in H; [|exact NR|exact CN]. apply plain_health_ign in H'; [|exact NR'|rewrite IX; exact CN]. rewrite H, H', CT, CP, CP'.
  rewrite (sum_change (fun u => contribution u ty (token_bal ign (perps_with e (sa_perp x) (sa_P x)) ty u)) (fun u => contribution u ty (token_bal ign (perps_with e p' (sa_P x)) ty u)) (bump d w) k t _ CN Nt).
  2:{ intros u Iu Nu. f_equal. unfold token_bal. f_equal. apply perp_sum_other. congruence. }
  cbv beta. f_equal. rewrite CC by exact FW. f_equal. f_equal. unfold token_bal. cbn [bump set_spot ti_spot ti_index]. rewrite It. specialize (PS (sa_perp x) p' ign ty). cbv beta zeta in PS. rewrite PS. lia.
Qed.

(** ** health pnl *)
Lemma unsettled_zero p mk x y : unsettled_funding (add_quote (settle_funding p mk) x y) mk = 0.
Proof. unfold unsettled_funding, settle_funding, add_quote. cbn [p_base p_long_settled p_short_settled]. rewrite !Z.sub_diag, !fmul_0_l. destruct (0 <? _); [|destruct (_ <? 0)]; reflexivity. Qed.
Lemma uhupnl_shift e p x y pr ty : uhupnl (perp_info e (add_quote (settle_funding p (xe_mk e)) x y) pr) ty = uhupnl (perp_info e p pr) ty + x.
Proof.
  unfold perp_info, new_pinfo, uhupnl, execution_case. rewrite unsettled_zero. cbn [add_quote settle_funding p_base p_quote p_bids p_asks p_taker_base p_taker_quote pi_quote pi_base pi_bids pi_asks pi_lot pi_init_aw pi_init_lw pi_maint_aw pi_maint_lw pi_prices].
  lia.
Qed.
Lemma uhupnl_le_pnl pi ty : perp_haircut pi -> uhupnl pi ty <= pi_quote pi + pi_base pi * pi_lot pi * pr_oracle (pi_prices pi).
Proof.
  intros H. pose proof H as (W1 & W2 & W3 & W4 & L0 & B0 & A0 & P1 & P2). pose proof (uhupnl_fills pi ty 0 0 H ltac:(lia) ltac:(lia)) as F. unfold fills_value in F. cbv zeta in F.
  replace (pi_base pi + 0 - 0) with (pi_base pi) in F by lia. pose proof fone_pos as FP.
  assert (PA : 0 <= asset_price (pi_prices pi) ty <= pr_oracle (pi_prices pi)) by (destruct ty; cbn [asset_price]; lia).
  assert (PL : pr_oracle (pi_prices pi) <= liab_price (pi_prices pi) ty) by (destruct ty; cbn [liab_price]; lia).
  set (ap := asset_price (pi_prices pi) ty) in *. set (lp := liab_price (pi_prices pi) ty) in *. set (o := pr_oracle (pi_prices pi)) in *. set (net := pi_base pi * pi_lot pi) in *.
  set (aw := match ty with HMaint => pi_maint_aw pi | _ => pi_init_aw pi end) in *. set (lw := match ty with HMaint => pi_maint_lw pi | _ => pi_init_lw pi end) in *.
  assert (WA : 0 <= aw <= fone) by (unfold aw; destruct ty; lia). assert (WL : fone <= lw) by (unfold lw; destruct ty; lia).
  replace (pi_quote pi - 0 * pi_lot pi * lp + 0 * pi_lot pi * ap) with (pi_quote pi) in F by ring.
  set (u := uhupnl pi ty) in *. set (q := pi_quote pi) in *. assert (O0 : 0 <= o) by (subst o; exact P1). clearbody ap lp o net aw lw u q. clear - F PA PL WA WL FP O0.
  assert (E : net * (if net <? 0 then lw * lp else aw * ap) <= net * o * fone); [|apply (Z.mul_le_mono_pos_r _ _ fone FP); rewrite Z.mul_add_distr_r, (Z.mul_comm q); eapply Z.le_trans; [exact F|]; apply Z.add_le_mono_l; exact E].
  destruct (Z.ltb_spec net 0).
  - assert (fone * o <= lw * lp) by nia. nia.
  - assert (aw * ap <= fone * o) by nia. nia.
Qed.
Lemma weigh_shift w u s : 0 <= w <= fone -> 0 <= s -> weigh w u - s - 1 <= weigh w (u - s).
Proof.
  intros W S. pose proof (weigh_bounds w u W) as [A B]. pose proof (weigh_bounds w (u - s) W) as [C D]. pose proof fone_pos as FP.
  destruct (Z.leb_spec u 0) as [Q|Q]; [rewrite B, D by lia; lia|]. specialize (A ltac:(lia)).
  destruct (Z.leb_spec (u - s) 0) as [R|R]; [rewrite D by lia; assert (Y : w * u <= fone * u) by nia; set (z := weigh w u) in *; clearbody z; clear - A Y FP; assert (z <= u) by nia; lia|]. specialize (C ltac:(lia)).
  assert (X : w * s <= fone * s) by nia. rewrite Z.mul_sub_distr_l in C. clear - A C X FP. set (y := weigh w (u - s)) in *. set (z := weigh w u) in *. clearbody y z. nia.
Qed.

(** ** the instruction *)
Record went (e : senv) (b : bank) (a c : sacct) (w : settler) (o : sout) (hc ha : cache) (bmax h_end h_maint : fx) (r : SettleLimit.settled) : Prop := {
  wn_pos : has_positions e a = true /\ has_positions e c = true;
  wn_hc : acct_cache e b c = Some hc;
  wn_max : perp_max_settle hc (wc_index (xe_cfg e)) = Some bmax;
  wn_ha : acct_cache e b a = Some ha;
  wn_end : health ha HLiqEnd = Some h_end;
  wn_maint : health ha HMaint = Some h_maint;
  wn_r : settle_pnl (xe_mk e) (xe_sc e) (sa_perp a) (sa_lim a) (sa_perp c) (sa_lim c) (xe_price e) (xe_sprice e) bmax h_end h_maint (xe_now e) = Some r;
  wn_amount : so_amount o = st_amount r /\ so_fee o = st_fee r;
  wn_a : so_a o = with_settled a (st_a r) (sa_tok (so_a o));
  wn_b : so_b o = with_settled c (st_b r) (sa_tok (so_b o));
  wn_moves : exists b1 b2 ta tc x1 x2 act, deposit b (sa_tok a) (st_amount r - st_fee r) (xe_now e) = Some (b1, ta, x1) /\
    withdraw_without_fee b1 (sa_tok c) (st_amount r) (xe_now e) = Some (b2, tc, x2) /\ so_closed o = negb act /\
    match w with
    | SettlerA => deposit b2 ta (st_fee r) (xe_now e) = Some (so_bank o, sa_tok (so_a o), act) /\ sa_tok (so_b o) = tc /\ so_other o = None
    | SettlerB => deposit b2 tc (st_fee r) (xe_now e) = Some (so_bank o, sa_tok (so_b o), act) /\ sa_tok (so_a o) = ta /\ so_other o = None
    | SettlerOther p => exists p', deposit b2 p (st_fee r) (xe_now e) = Some (so_bank o, p', act) /\ sa_tok (so_a o) = ta /\ sa_tok (so_b o) = tc /\ so_other o = Some p'
    end }.
Lemma settle_inv e b a c w sg o : perp_settle_pnl e b a c w sg = Some o -> sg = true /\ exists hc ha bmax he hm r, went e b a c w o hc ha bmax he hm r.
Proof.
  unfold perp_settle_pnl. destruct (has_positions e a) eqn:PA; [|discriminate]. destruct (has_positions e c) eqn:PC; cbn [andb guard]; [|discriminate].
  destruct (acct_cache e b c) as [hc|] eqn:HC; [|discriminate]. destruct (perp_max_settle _ _) as [bmax|] eqn:BM; [|discriminate]. destruct (acct_cache e b a) as [ha|] eqn:HA; [|discriminate].
  destruct (health ha HLiqEnd) as [he|] eqn:HE; [|discriminate]. destruct (health ha HMaint) as [hm|] eqn:HM; [|discriminate]. destruct (settle_pnl _ _ _ _ _ _ _ _ _ _ _ _) as [r|] eqn:R; [|discriminate].
  destruct (deposit b _ _ _) as [[[b1 ta] x1]|] eqn:D1; [|discriminate]. destruct (withdraw_without_fee b1 _ _ _) as [[[b2 tc] x2]|] eqn:W1; [|discriminate]. destruct sg; cbn [guard]; [|discriminate].
  intros H. split; [reflexivity|]. exists hc, ha, bmax, he, hm, r. destruct w as [| |p].
  - destruct (deposit b2 ta _ _) as [[[b3 t3] act]|] eqn:D2; [|discriminate]. apply some_inj in H. subst o. constructor; cbn [so_amount so_fee so_a so_b so_other so_closed so_bank with_settled sa_tok]; try assumption; try (split; assumption || reflexivity); try reflexivity.
    exists b1, b2, ta, tc, x1, x2, act. auto 7.
  - destruct (deposit b2 tc _ _) as [[[b3 t3] act]|] eqn:D2; [|discriminate]. apply some_inj in H. subst o. constructor; cbn [so_amount so_fee so_a so_b so_other so_closed so_bank with_settled sa_tok]; try assumption; try (split; assumption || reflexivity); try reflexivity.
    exists b1, b2, ta, tc, x1, x2, act. auto 7.
  - destruct (deposit b2 p _ _) as [[[b3 t3] act]|] eqn:D2; [|discriminate]. apply some_inj in H. subst o. constructor; cbn [so_amount so_fee so_a so_b so_other so_closed so_bank with_settled sa_tok]; try assumption; try (split; assumption || reflexivity); try reflexivity.
    exists b1, b2, ta, tc, x1, x2, act. split; [exact D1|]. split; [exact W1|]. split; [reflexivity|]. exists t3. auto.
Qed.
Lemma deposit_native' b p x now b' p' a : index_ok b -> 0 < t_use p \/ 0 <= t_ix p -> deposit b p x now = Some (b', p', a) ->
  x - 2 < native b' p' - native b p < x + ix_round b /\ moved b b' p p' /\ b_fees b' = b_fees b /\ b_dust b' = b_dust b /\ a = true.
Proof.
  intros OK U E. unfold deposit in E.
  apply deposit_spec in E as (_ & Mv & F & _ & A & A' & B1 & B2 & _); [|exact OK].
  assert (a = true) as ->.
  { destruct a; [reflexivity|]. destruct (A' eq_refl) as (Q & Q2 & _). destruct U as [U|U]; [|lia]. unfold in_use in Q. apply negb_true_iff, Z.ltb_ge in Q. lia. }
  rewrite (A eq_refl) in B1, B2. rewrite Z.sub_diag, Z.mul_0_l, Z.add_0_r in B1, B2.
  split; [|auto]. pose proof (native_bounds b' p') as N1. rewrite (moved_pv _ _ _ _ _ Mv) in N1. pose proof (native_bounds b p) as N2. pose proof (ix_round_bound b OK) as IR. pose proof fone_pos as FP. destruct OK as [D1 D2].
  clear - B1 B2 N1 N2 IR FP D1 D2. set (mx := Z.max _ _) in *. set (n1 := native b' p') in *. set (n2 := native b p) in *. set (ir := ix_round _) in *. clearbody mx n1 n2 ir.
  set (p1 := pv _ _) in *. set (p2 := pv _ _) in *. clearbody p1 p2. split; nia.
Qed.
(** what A and B get of the fee *)
Definition fee_to_a (w : settler) (fee : fx) : fx := match w with SettlerA => fee | _ => 0 end.
Definition fee_to_b (w : settler) (fee : fx) : fx := match w with SettlerB => fee | _ => 0 end.
Definition other_ok (w : settler) : Prop := match w with SettlerOther p => 0 < t_use p \/ 0 <= t_ix p | _ => True end.
Lemma token_moves e b a c w o hc ha bmax he hm r : index_ok b -> 0 <= b_lof b -> 0 < t_use (sa_tok a) -> 0 < t_use (sa_tok c) -> other_ok w ->
  went e b a c w o hc ha bmax he hm r ->
  let s := so_amount o in let fee := so_fee o in let n := ix_round b in
  let da := native (so_bank o) (sa_tok (so_a o)) - native b (sa_tok a) in let dc := native (so_bank o) (sa_tok (so_b o)) - native b (sa_tok c) in
  0 <= n /\
  s - fee + fee_to_a w fee - 4 < da < s - fee + fee_to_a w fee + 2 * n /\ fee_to_b w fee - s - 4 < dc < fee_to_b w fee - s + 2 * n /\
  (forall p, w = SettlerOther p -> exists p', so_other o = Some p' /\ fee - 2 < native (so_bank o) p' - native b p < fee + n) /\ so_closed o = false /\
  b_fees (so_bank o) = b_fees b /\ b_dust (so_bank o) = b_dust b /\ b_di (so_bank o) = b_di b /\ b_bi (so_bank o) = b_bi b /\
  let change f := f (t_ix (sa_tok (so_a o))) - f (t_ix (sa_tok a)) + (f (t_ix (sa_tok (so_b o))) - f (t_ix (sa_tok c))) +
    match w, so_other o with SettlerOther p, Some p' => f (t_ix p') - f (t_ix p) | _, _ => 0 end in
  b_dep (so_bank o) - b_dep b = change (fun x => Z.max x 0) /\ b_bor (so_bank o) - b_bor b = change (fun x => Z.max (- x) 0).
Proof.
  intros OK LO UA UC OO [_ _ _ _ _ _ _ [-> ->] _ _ (b1 & b2 & ta & tc & x1 & x2 & act & D1 & W1 & CL & M)]. cbv beta zeta.
  assert (N0 : 0 <= ix_round b). { pose proof (ix_round_bound b OK) as IR. pose proof fone_pos. destruct OK. clear - IR H H0 H1. nia. }
  apply deposit_native in D1 as (A1 & A2 & A3 & A4); [|exact OK|exact UA].
  assert (OK1 : index_ok b1) by (destruct OK; split; [rewrite (mv_di _ _ _ _ A2)|rewrite (mv_bi _ _ _ _ A2)]; assumption).
  apply withdraw_native in W1 as (B1 & B2 & B3 & B4); [|exact OK1|rewrite (mv_lof _ _ _ _ A2); exact LO|exact UC].
  assert (OK2 : index_ok b2) by (destruct OK1; split; [rewrite (mv_di _ _ _ _ B2)|rewrite (mv_bi _ _ _ _ B2)]; assumption).
  pose proof (mv_di _ _ _ _ A2) as I1. pose proof (mv_bi _ _ _ _ A2) as I2. pose proof (mv_di _ _ _ _ B2) as I3. pose proof (mv_bi _ _ _ _ B2) as I4.
  rewrite (ix_round_same b b1 I1 I2), (native_same b b1 _ I1 I2) in B1.
  assert (E : forall p, native b2 p = native b p) by (intros p; rewrite (native_same b1 b2 _ I3 I4); apply native_same; assumption).
  assert (E1 : forall p, native b1 p = native b p) by (intros p; apply native_same; assumption).
  rewrite !E1 in A1. rewrite !E in B1. split; [exact N0|]. unfold fee_to_a, fee_to_b. pose proof (mv_dep _ _ _ _ A2) as T1. pose proof (mv_bor _ _ _ _ A2) as T2. pose proof (mv_dep _ _ _ _ B2) as T3. pose proof (mv_bor _ _ _ _ B2) as T4.
  assert (IR2 : ix_round b2 = ix_round b) by (rewrite (ix_round_same b1 b2 I3 I4); apply ix_round_same; assumption).
  destruct w as [| |p].
  - destruct M as (D2 & -> & ->). apply deposit_native' in D2 as (C1 & C2 & C3 & C4 & C5); [|exact OK2|left; rewrite (mv_use _ _ _ _ A2); exact UA].
    pose proof (mv_di _ _ _ _ C2) as I5. pose proof (mv_bi _ _ _ _ C2) as I6. rewrite !(native_same b2 (so_bank o) _ I5 I6), !E in *. rewrite IR2 in C1.
    pose proof (mv_dep _ _ _ _ C2) as T5. pose proof (mv_bor _ _ _ _ C2) as T6.
    split; [lia|]. split; [lia|]. split; [intros p Q; discriminate|]. split; [rewrite CL, C5; reflexivity|]. do 4 (split; [congruence|]). lia.
  - destruct M as (D2 & -> & ->). apply deposit_native' in D2 as (C1 & C2 & C3 & C4 & C5); [|exact OK2|left; rewrite (mv_use _ _ _ _ B2); exact UC].
    pose proof (mv_di _ _ _ _ C2) as I5. pose proof (mv_bi _ _ _ _ C2) as I6. rewrite !(native_same b2 (so_bank o) _ I5 I6), !E in *. rewrite IR2 in C1.
    pose proof (mv_dep _ _ _ _ C2) as T5. pose proof (mv_bor _ _ _ _ C2) as T6.
    split; [lia|]. split; [lia|]. split; [intros p Q; discriminate|]. split; [rewrite CL, C5; reflexivity|]. do 4 (split; [congruence|]). lia.
  - destruct M as (p' & D2 & -> & -> & ->). apply deposit_native' in D2 as (C1 & C2 & C3 & C4 & C5); [|exact OK2|exact OO].
    pose proof (mv_di _ _ _ _ C2) as I5. pose proof (mv_bi _ _ _ _ C2) as I6. rewrite !(native_same b2 (so_bank o) _ I5 I6), !E in *. rewrite IR2 in C1.
    pose proof (mv_dep _ _ _ _ C2) as T5. pose proof (mv_bor _ _ _ _ C2) as T6.
    split; [lia|]. split; [lia|]. split; [intros q Q; injection Q as <-; exists p'; split; [reflexivity|]; rewrite !(native_same b2 (so_bank o) _ I5 I6), !E; exact C1|]. split; [rewrite CL, C5; reflexivity|]. do 4 (split; [congruence|]). lia.
Qed.
Lemma settled_positions mk c pa la pb lb price sp bmax he hm now r : settle_pnl mk c pa la pb lb price sp bmax he hm now = Some r ->
  (exists y, fst (st_a r) = add_quote (settle_funding pa mk) (- st_amount r) y) /\ (exists y, fst (st_b r) = add_quote (settle_funding pb mk) (st_amount r) y).
Proof.
  unfold settle_pnl. cbv zeta. destruct (negb _ || negb _); [discriminate|]. destruct (update_settle_limit la c now); [|discriminate]. destruct (update_settle_limit lb c now); [|discriminate].
  match goal with |- (if ?x then _ else _) = _ -> _ => destruct x; [discriminate|] end. set (s := Z.max _ 0). clearbody s. destruct (compute_settle_fee _ _ _ _ _ _); [|discriminate]. intros H. apply some_inj in H. subst r. cbn [st_a st_b st_amount].
  split; [apply record_settle_pos|]. destruct (record_settle_pos (settle_funding pb mk) l0 mk c (- s)) as [y Y]. rewrite Z.opp_involutive in Y. exists y. exact Y.
Qed.
