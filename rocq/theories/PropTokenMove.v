(** C85: withdrawing, C86: depositing; the instructions as a whole. *)
From Coq Require Import List ZArith Lia Bool.
From Verif Require Import Interest InterestFacts Bank BankSpec BankFacts BankResults Health HealthSpec HealthDiv HealthFacts HealthMore HealthSkip LiqState TokenLiq TokenLiqFacts SerumCache
  Scaling ScalingFacts PropScaling TokenMove TokenMoveFacts PropInterest PropBank PropHealth PropTokenLiq Fixed.
Import ListNotations.
Open Scope Z_scope.

(** the oracle and the stable price of the token are equal, or its asset weight is not scaled *)
Definition same_scaling (c : wcfg) (L : list pos_in) : Prop :=
  wc_dep_start c = None \/ forall q, In q L -> ti_index (pin_info q) = wc_index c -> pr_oracle (ti_prices (pin_info q)) = pr_stable (ti_prices (pin_info q)).
(** token indexes of the account's positions *)
Definition pos_ids (L : list pos_in) : list Z := map (fun q => ti_index (pin_info q)) L.

(** ** C85 *)
(** What is paid out, and when: never more than the vault holds; a borrow only if asked for, if borrowing is allowed, at a trusted price,
    and within the limits on utilization and net borrows; a delegate can only pay all of a position to the owner's own token account. *)
Theorem C85_conditions : forall e b p L O P flag net amount ab o, bank_holds b p -> withdraw_ix e b p L O P flag net amount ab = Some o ->
  0 < amount /\ t_ix (wo_pos o) <= t_ix p /\
  ((amount = U64_MAX /\ ab = false /\ native b p < 0 /\ wo_bank o = b /\ wo_pos o = p /\ wo_paid o = 0 /\ wo_net o = net) \/
   (wo_paid o = (if (amount =? U64_MAX) && negb ab then to_int (native b p) else amount) /\ wo_paid o <= we_vault e /\
    (native b p < of_int (wo_paid o) -> ab = true /\ borrows_reduce_only b = false /\ we_price_ok e = true /\
       enforce_max_utilization (wo_bank o) (b_max_util (wo_bank o)) = true /\ check_net_borrows (wo_bank o) (we_price e) = true) /\
    (we_delegate e = true -> we_owner_ata e = true /\ t_ix (wo_pos o) = 0 /\ wo_active o = false /\ 0 <= native b p - of_int (wo_paid o) < fone) /\
    (wo_active o = false -> t_ix (wo_pos o) = 0) /\
    wo_net o = net - to_int (fmul (of_int (wo_paid o)) (we_price e)))).
Proof.
  intros e b p L O P flag net amount ab o BH H. pose proof (withdraw_ix_moved _ _ _ _ _ _ _ _ _ _ _ BH H) as (_ & LE & _). apply withdraw_ix_inv in H as (A & f & pre & _ & _ & X). split; [exact A|]. split; [exact LE|].
  destruct X as [(X1 & X2 & X3 & ->)|(N & r & T & AC & DG & NET & _)]; [left; cbn [wo_bank wo_pos wo_paid wo_net]; auto 10|right].
  destruct BH as (D & B & LF & _). pose proof (conj D B) as IO. fold (index_ok b) in IO. apply token_withdraw_inv in T as (_ & [(Y1 & Y2 & Y3 & _)|(PD & W & V & BO & _)]); [exfalso; apply N; auto|].
  apply withdraw_spec in W as (_ & _ & _ & _ & _ & _ & _ & _ & CL & _); [|exact IO|exact LF].
  split; [exact PD|]. split; [exact V|]. split; [exact BO|]. split; [|split; [intros Q; rewrite AC in Q; apply CL, Q|exact NET]].
  intros Q. destruct (DG Q) as [G1 G2]. destruct (CL G2) as (_ & _ & C1 & _ & C2 & _). split; [exact G1|]. split; [exact C1|]. split; [congruence|exact C2].
Qed.
Print Assumptions C85_conditions.

(** Outside a health region the account is not being liquidated afterwards; the last health checked is at least zero, or no worse than
    before; and if the token is not among the ones health is known for, nothing may be borrowed and health must be at least zero without it. *)
Theorem C85_health : forall e b p L O P flag net amount ab o, withdraw_ix e b p L O P flag net amount ab = Some o -> we_region e = false ->
  wo_flag o = false /\ exists hc pre, build_cache true L O P = Some hc /\ health hc HInit = Some pre /\
    (wo_cache o = None -> wo_bank o = b /\ wo_pos o = p /\ wo_paid o = 0) /\
    (forall hc', wo_cache o = Some hc' -> exists post, health hc' HInit = Some post /\
      (0 <= post \/ (of_int (-1000) <= post /\ pre <= post) \/ (post < of_int (-1000) /\ fceil pre <= fceil post)) /\
      (~ In (wc_index (we_cfg e)) (map ti_index (hc_tokens hc)) -> of_int (wo_paid o) <= native b p /\ 0 <= post /\ hc' = hc)).
Proof.
  intros e b p L O P flag net amount ab o H R. apply withdraw_ix_inv in H as (A & f & pre & F & X & Y). rewrite R in X. destruct X as (hc & h & h2 & B & H1 & H2 & PC & ->).
  split. { rewrite F. unfold pre_check in PC. destruct (if recover flag h then _ else _); [discriminate|]. apply some_inj in PC. auto. }
  exists hc, h. split; [exact B|]. split; [exact H1|]. destruct Y as [(_ & _ & _ & ->)|(_ & r & _ & _ & _ & _ & M)]; [cbn [wo_cache wo_bank wo_pos wo_paid]; split; [auto|discriminate]|].
  destruct (nth_info hc (wc_index (we_cfg e))) as [[i t]|] eqn:N.
  - destruct M as (w & hc' & post & _ & AD & HP & PO & ->). split; [discriminate|]. intros hc1 Q. apply some_inj in Q. subst hc1. exists post. split; [exact HP|]. split.
    + unfold post_check in PO. apply orb_prop in PO as [E|E]; [left; apply Z.leb_le, E|right]. destruct (Z.ltb_spec post (of_int (-1000))) as [LT|LT]; apply Z.leb_le in E; [right|left]; auto.
    + intros NI. exfalso. apply NI. apply nth_info_some in N as (N & _). apply token_pos_in. congruence.
  - destruct M as (M1 & M2 & ->). split; [discriminate|]. intros hc1 Q. apply some_inj in Q. subst hc1. exists h. auto 10.
Qed.
Print Assumptions C85_health.

(** The cache of that check is the one that would be built from the account's new state, if the weights are scaled in the same way. *)
Lemma price_same c L q b aw lw t : same_scaling c L -> In q L -> ti_index (pin_info q) = wc_index c -> ti_prices (pin_info q) = ti_prices t -> adjusted_weights c b (ti_prices t) = Some (aw, lw) ->
  scaled_init_asset_weight c b (liab_price (ti_prices (pin_info q)) HInit) = Some aw /\ scaled_init_liab_weight c b (liab_price (ti_prices (pin_info q)) HInit) = Some lw.
Proof.
  intros SS I E P A. unfold adjusted_weights in A. destruct (scaled_init_asset_weight c b _) as [a|] eqn:X; [|discriminate]. destruct (scaled_init_liab_weight c b _) as [l|] eqn:Y; [|discriminate].
  apply some_inj in A. apply pair_equal_spec in A as [-> ->]. rewrite P. split; [|exact Y]. destruct SS as [SS|SS].
  - rewrite (proj1 (C84_unscaled c b _) SS). rewrite (proj1 (C84_unscaled c b _) SS) in X. exact X.
  - specialize (SS q I E). rewrite P in SS. rewrite <- X. f_equal. cbn [liab_price asset_price]. lia.
Qed.
Lemma actual e b p L O P flag net amount ab o L' : bank_holds b p -> NoDup (pos_ids L) -> positions_with (we_cfg e) b p L = Some L -> positions_with (we_cfg e) (wo_bank o) (wo_pos o) L = Some L' ->
  same_scaling (we_cfg e) L -> we_region e = false -> withdraw_ix e b p L O P flag net amount ab = Some o ->
  exists hc pre, build_cache true L O P = Some hc /\ health hc HInit = Some pre /\
  ((wo_cache o = None /\ L' = L) \/
   (exists hc' post, wo_cache o = Some hc' /\ health hc' HInit = Some post /\ build_cache true L' O P = Some hc' /\ post_check pre post = true /\
      ((0 <= post) \/ exists w, adjust_token_balance hc (wc_index (we_cfg e)) (native (wo_bank o) (wo_pos o) - native b p) w = Some hc' /\
         L' = map (pos_bump (wc_index (we_cfg e)) (native (wo_bank o) (wo_pos o) - native b p) w (0 <=? t_ix (wo_pos o))) L))).
Proof.
  intros BH ND S S' SS R H. apply withdraw_ix_inv in H as (A & f & pre & F & X & Y). rewrite R in X. destruct X as (hc & h & h2 & B & H1 & H2 & PC & ->). exists hc, h. split; [exact B|]. split; [exact H1|].
  destruct Y as [(_ & _ & _ & ->)|(NX & r & TW & _ & _ & _ & M)].
  - left. cbn [wo_cache wo_bank wo_pos] in *. split; [reflexivity|]. rewrite S in S'. apply some_inj in S'. auto.
  - right. destruct (nth_info hc (wc_index (we_cfg e))) as [[i t]|] eqn:N.
    + destruct M as ([aw lw] & hc' & post & AW & AD & HP & PO & Q). apply nth_info_some in N as (N1 & N2 & N3).
      assert (EL : L' = map (pos_bump (wc_index (we_cfg e)) (native (wo_bank o) (wo_pos o) - native b p) (aw, lw) (0 <=? t_ix (wo_pos o))) L).
      { eapply pw_bump; [exact ND|exact S|exact S'|]. intros q I E. destruct (build_cache_from _ _ _ _ _ _ B N2) as (q' & I' & E1 & E2).
        assert (q' = q). { clear - ND I I' E E1 N3. induction L as [|a L IH]; [destruct I|]. unfold pos_ids in *. cbn [map] in ND. inversion ND as [|? ? NI ND']; subst.
          destruct I as [<-|I], I' as [<-|I']; [reflexivity| | |apply IH; assumption]; exfalso; apply NI; apply in_map_iff; [exists q'|exists q]; split; congruence || assumption. }
        subst q'. cbn [fst snd]. eapply price_same; eassumption. }
      exists hc', post. split; [exact Q|]. split; [exact HP|]. split; [|split; [exact PO|right; exists (aw, lw); split; assumption]]. rewrite EL. eapply adjust_built; eassumption.
    + destruct M as (M1 & M2 & Q). exists hc, h. split; [exact Q|]. split; [exact H1|]. apply nth_info_none in N.
      assert (T0 : 0 <= t_ix (wo_pos o)).
      { destruct BH as (D & BB & LF & _). pose proof (conj D BB) as IO. fold (index_ok b) in IO. apply token_withdraw_inv in TW as (_ & [(Y1 & Y2 & Y3 & _)|(_ & W & _)]); [exfalso; apply NX; auto|].
        apply withdraw_spec in W as (_ & _ & _ & _ & _ & _ & _ & _ & _ & _ & _ & W & _); [|exact IO|exact LF]. apply W, M1. }
      split; [eapply unknown_cache; eassumption|]. split; [unfold post_check; destruct (Z.leb_spec 0 h); [reflexivity|lia]|left; exact M2].
Qed.
Theorem C85_is_actual : forall e b p L O P flag net amount ab o L' hc',
  bank_holds b p -> NoDup (pos_ids L) -> positions_with (we_cfg e) b p L = Some L -> positions_with (we_cfg e) (wo_bank o) (wo_pos o) L = Some L' -> same_scaling (we_cfg e) L ->
  withdraw_ix e b p L O P flag net amount ab = Some o -> wo_cache o = Some hc' -> build_cache true L' O P = Some hc'.
Proof.
  intros e b p L O P flag net amount ab o L' hc' BH ND S S' SS H Q. destruct (we_region e) eqn:R.
  - exfalso. apply withdraw_ix_inv in H as (A & f & pre & F & X & Y). rewrite R in X. destruct X as [_ ->]. destruct Y as [(_ & _ & _ & ->)|(_ & r & _ & _ & _ & _ & M)]; [discriminate|congruence].
  - destruct (actual _ _ _ _ _ _ _ _ _ _ _ _ BH ND S S' SS R H) as (hc & pre & _ & _ & [[E _]|(hc1 & post & E & _ & B & _)]); [congruence|]. rewrite E in Q. apply some_inj in Q. subst. exact B.
Qed.
Print Assumptions C85_is_actual.

(** Then, if nothing is reserved in open spot orders, the account's health with all of its tokens, also those left out of the check, is
    at least zero afterwards or not lowered (by more than 2 units of 2^-48; by more than one, if health with the known tokens only is
    below -1000). *)
Theorem C85_true_health : forall e b p L O P flag net amount ab o L' hf y hf' y',
  wcfg_ok (we_cfg e) -> wc_init_aw (we_cfg e) <= wc_init_lw (we_cfg e) -> wc_maint_aw (we_cfg e) <= wc_maint_lw (we_cfg e) ->
  bank_holds b p -> NoDup (pos_ids L) -> Forall position_ok L -> Forall free_ok O -> Forall all_free O ->
  positions_with (we_cfg e) b p L = Some L -> positions_with (we_cfg e) (wo_bank o) (wo_pos o) L = Some L' -> same_scaling (we_cfg e) L ->
  we_region e = false -> withdraw_ix e b p L O P flag net amount ab = Some o ->
  build_cache false (map complete L) O P = Some hf -> health hf HInit = Some y ->
  build_cache false (map complete L') O P = Some hf' -> health hf' HInit = Some y' ->
  0 <= y' \/ y <= y' + 2 \/ (y < y' + fone + 2 /\ exists hs x, build_cache true L' O P = Some hs /\ health hs HInit = Some x /\ x < of_int (-1000)).
Proof.
  intros e b p L O P flag net amount ab o L' hf y hf' y' WO W1 W2 BH ND PO FO AF S S' SS R H BF HF BF' HF'.
  pose proof (withdraw_ix_moved _ _ _ _ _ _ _ _ _ _ _ BH H) as (BH' & LE & DE & BO & SE & DI & BI & NL).
  destruct (actual _ _ _ _ _ _ _ _ _ _ _ _ BH ND S S' SS R H) as (hc & pre & B & HP & [[E ->]|(hc' & post & E & HQ & B' & PC & X)]).
  - rewrite BF in BF'. apply some_inj in BF'. subst hf'. rewrite HF in HF'. apply some_inj in HF'. subst y'. right; left; lia.
  - pose proof (pw_ok _ _ _ _ _ WO BH' PO S') as PO'. pose proof (pw_map _ _ _ _ _ S') as PM. assert (ND' : NoDup (map (fun q => ti_index (pin_info q)) L')) by (rewrite PM; exact ND).
    pose proof (skipped_health L' O P hc' hf' HInit post y' PO' FO AF ND' B' BF' HQ HF') as SK. destruct X as [X|(w & AD & EL)]; [left; lia|].
    unfold post_check in PC. apply orb_prop in PC as [PC|PC]; [apply Z.leb_le in PC; left; lia|right].
    destruct (skip_facts L O P hc hf PO FO AF ND B BF) as (CO & N1 & N2 & TO & R1 & R2 & P1 & P2).
    pose proof (plain_health _ _ _ R1 N1 HP) as E1. pose proof (plain_health _ _ _ R2 N2 HF) as E2. rewrite P1 in E1. rewrite P2 in E2.
    destruct (adjusted_plain _ _ _ _ _ _ _ R1 N1 AD HQ) as (i & TI & E3). rewrite P1 in E3.
    assert (IN : In (wc_index (we_cfg e)) (map ti_index (hc_tokens hf))). { apply (covers_incl _ _ _ CO). apply token_pos_in. congruence. }
    destruct (token_pos (hc_tokens hf) (wc_index (we_cfg e))) as [j|] eqn:TJ; [|apply token_pos_in in IN; contradiction].
    set (d := native (wo_bank o) (wo_pos o) - native b p) in *.
    assert (AF2 : exists hf2, adjust_token_balance hf (wc_index (we_cfg e)) d w = Some hf2) by (unfold adjust_token_balance; rewrite TJ; eexists; reflexivity). destruct AF2 as (hf2 & AF2).
    assert (NC : NoDup (map (fun q => ti_index (pin_info q)) (map complete L))) by (rewrite map_map; exact ND).
    pose proof (adjust_built false (map complete L) O P hf (wc_index (we_cfg e)) d w (0 <=? t_ix (wo_pos o)) hf2 NC BF AF2) as BF2. rewrite <- complete_bump, <- EL, BF' in BF2. apply some_inj in BF2. subst hf2.
    destruct (adjusted_plain _ _ _ _ _ _ _ R2 N2 AF2 HF') as (j' & TJ' & E4). rewrite TJ in TJ'. apply some_inj in TJ'. subst j'. rewrite P2 in E4.
    assert (D0 : d <= 0) by (unfold d; lia).
    assert (WW : forall t, In t (hc_tokens hf) -> ti_index t = wc_index (we_cfg e) -> ti_scaled_aw t <= fst w /\ ti_scaled_aw t <= snd w /\ ti_scaled_lw t <= snd w /\ ti_init_aw t <= ti_init_lw t /\ ti_maint_aw t <= ti_maint_lw t).
    { intros t I E0. destruct (build_cache_is _ _ _ _ _ _ BF I) as (q0 & z & I0 & ->). apply in_map_iff in I0 as (q & <- & Iq). cbn [add_spot ti_index complete pin_info] in E0.
      cbn [add_spot ti_scaled_aw ti_scaled_lw ti_init_aw ti_init_lw ti_maint_aw ti_maint_lw complete pin_info].
      assert (TQ : forall bb pp LL, positions_with (we_cfg e) bb pp L = Some LL -> NoDup (map (fun q => ti_index (pin_info q)) LL) -> exists q', In q' LL /\ ti_index (pin_info q') = wc_index (we_cfg e) /\ token_info (we_cfg e) bb (ti_prices (pin_info q)) (native bb pp) = Some (pin_info q')).
      { clear - Iq E0. intros bb pp. induction L as [|a L IH]; intros LL HL NL; [destruct Iq|]. cbn [positions_with] in HL. destruct (positions_with _ _ _ L) as [RR|]; [|discriminate]. destruct Iq as [->|Iq].
        - rewrite E0, Z.eqb_refl in HL. destruct (token_info _ _ _ _) as [ti|] eqn:TI; [|discriminate]. apply some_inj in HL. subst LL. eexists. split; [left; reflexivity|]. cbn [pin_info]. split; [|reflexivity].
          unfold token_info in TI. destruct (scaled_init_asset_weight _ _ _); [|discriminate]. destruct (scaled_init_liab_weight _ _ _); [|discriminate]. apply some_inj in TI. subst ti. reflexivity.
        - assert (G : NoDup (map (fun q => ti_index (pin_info q)) RR) /\ incl RR LL).
          { clear IH. destruct (ti_index (pin_info a) =? _); [destruct (token_info _ _ _ _) in HL; [|discriminate HL]|]; apply some_inj in HL; subst LL; cbn [map] in NL; inversion NL; subst; split; try assumption; intros z Hz; right; exact Hz. }
          destruct (IH Iq RR eq_refl (proj1 G)) as (q' & Q1 & Q2). exists q'. split; [apply G, Q1|exact Q2]. }
      assert (UQ : forall LL q1 q2, NoDup (map (fun q => ti_index (pin_info q)) LL) -> In q1 LL -> In q2 LL -> ti_index (pin_info q1) = wc_index (we_cfg e) -> ti_index (pin_info q2) = wc_index (we_cfg e) -> q1 = q2).
      { clear. induction LL as [|a LL IH]; intros q1 q2 ND I1 I2 E1 E2; [destruct I1|]. cbn [map] in ND. inversion ND as [|? ? NI ND']; subst.
        destruct I1 as [<-|I1], I2 as [<-|I2]; [reflexivity| | |apply IH; assumption]; exfalso; apply NI; apply in_map_iff; [exists q2|exists q1]; split; congruence || assumption. }
      destruct (TQ _ _ _ S ND) as (q1 & Q1 & Q2 & Q3). assert (q1 = q) by exact (UQ L q1 q ND Q1 Iq Q2 E0). subst q1.
      destruct (TQ _ _ _ S' ND') as (q2 & Q4 & Q5 & Q6).
      assert (QB : In (pos_bump (wc_index (we_cfg e)) d w (0 <=? t_ix (wo_pos o)) q) L') by (rewrite EL; apply in_map, Iq).
      assert (q2 = pos_bump (wc_index (we_cfg e)) d w (0 <=? t_ix (wo_pos o)) q). { eapply UQ; [exact ND'|exact Q4|exact QB|exact Q5|]. unfold pos_bump. rewrite E0, Z.eqb_refl. cbn [pin_info bump set_spot ti_index]. exact E0. }
      subst q2. unfold pos_bump in Q6. rewrite E0, Z.eqb_refl in Q6. cbn [pin_info] in Q6. set (pr := ti_prices (pin_info q)) in *.
      rewrite Forall_forall in PO. destruct (PO q Iq) as [(K1 & K2 & K3 & K4 & K5 & K6) _]. fold pr in K5, K6.
      unfold token_info in Q3, Q6. destruct (scaled_init_asset_weight (we_cfg e) b _) as [a1|] eqn:A1; [|discriminate]. destruct (scaled_init_liab_weight (we_cfg e) b _) as [l1|] eqn:L1; [|discriminate].
      destruct (scaled_init_asset_weight (we_cfg e) (wo_bank o) _) as [a2|] eqn:A2; [|discriminate]. destruct (scaled_init_liab_weight (we_cfg e) (wo_bank o) _) as [l2|] eqn:L2; [|discriminate].
      apply some_inj in Q3, Q6. pose proof (f_equal ti_scaled_aw Q6) as F1. pose proof (f_equal ti_scaled_lw Q6) as F2. cbn [bump set_spot ti_scaled_aw ti_scaled_lw] in F1, F2.
      rewrite <- Q3. cbn [ti_scaled_aw ti_scaled_lw ti_init_aw ti_init_lw ti_maint_aw ti_maint_lw]. rewrite <- F1, <- F2.
      destruct (holds_nonneg _ _ BH) as [V1 V2]. destruct (holds_nonneg _ _ BH') as [V3 V4].
      assert (PR : 0 <= liab_price pr HInit) by (cbn [liab_price]; lia). pose proof BH as (Z1 & Z2 & _ & Z4 & Z5 & Z6). pose proof BH' as (_ & _ & _ & Z4' & Z5' & Z6').
      pose proof (wo_aw _ WO) as OA. pose proof (wo_lw _ WO) as OL.
      assert (ND1 : native_deposits (wo_bank o) <= native_deposits b) by (unfold native_deposits; rewrite DI; apply fmul_mono; lia).
      assert (NB1 : native_borrows b <= native_borrows (wo_bank o)) by (unfold native_borrows; rewrite BI; apply fmul_mono; lia).
      destruct (C84_direction (we_cfg e) (wo_bank o) b (liab_price pr HInit) (liab_price pr HInit) ltac:(lia) ltac:(lia) ltac:(lia) (wo_dep _ WO) (wo_bor _ WO)) as [G1 _].
      destruct (C84_direction (we_cfg e) b (wo_bank o) (liab_price pr HInit) (liab_price pr HInit) ltac:(lia) ltac:(lia) ltac:(lia) (wo_dep _ WO) (wo_bor _ WO)) as [_ G2].
      pose proof (G1 a2 a1 ltac:(lia) ltac:(lia) A2 A1) as GA. pose proof (G2 l1 l2 ltac:(lia) (wo_big _ WO) L1 L2) as GL.
      pose proof (scaled_aw_range _ _ _ _ WO V1 Z4 PR A1) as RA. pose proof (scaled_lw_range _ _ _ _ WO V4 PR L2) as RL. lia. }
    pose proof (covers_bump P HInit _ _ CO (wc_index (we_cfg e)) i j d w N2 TO D0 WW TI TJ) as CB. cbv beta zeta in CB. rewrite <- E1, <- E2, <- E3, <- E4 in CB.
    destruct (Z.ltb_spec post (of_int (-1000))) as [LT|LT]; apply Z.leb_le in PC.
    + right. split; [|exists hc', post; auto]. pose proof fone_pos. unfold LiqState.fceil in PC. pose proof (Z.div_mod (- pre) fone ltac:(lia)). pose proof (Z.mod_pos_bound (- pre) fone ltac:(lia)).
      pose proof (Z.div_mod (- post) fone ltac:(lia)). pose proof (Z.mod_pos_bound (- post) fone ltac:(lia)). nia.
    + left. lia.
Qed.
Print Assumptions C85_true_health.

(** *** examples *)
Definition mv_cfg (idx aw lw : Z) (start : option Z) : wcfg := mkWC idx (pct aw) (pct aw) (pct lw) (pct lw) start None true.
Definition mv_bank (p : tpos) (others : Z) : bank := set_totals ex_bank (Z.max (t_ix p) 0 + of_int others / 1000000) (Z.max (- t_ix p) 0) 0 0.
Definition mv_pos (c : wcfg) (b : bank) (p : tpos) (pr : prices) : pos_in :=
  mkPosIn true true (0 <=? t_ix p) match token_info c b pr (native b p) with Some t => t | None => tok_w 0 0 0 0 end.
Definition mv_env (c : wcfg) (deleg : bool) : wenv := mkWE c 50 5000 fone true deleg true false.
Ltac tokok := unfold token_ok, prices_ok; split; [split; zc|]; split; [zc|]; split; [split; zc|]; split; [zc|]; split; zc.
Ltac pos1 := match goal with |- position_ok ?q => split; [change (token_ok (pin_info q)); tokok|let H := fresh in intros H; first [zc | vm_compute in H; discriminate H]] end.
Ltac posok D := unfold D; repeat match goal with |- Forall _ (_ :: _) => apply Forall_cons; [pos1|] | |- Forall _ [] => apply Forall_nil end.
Ltac cfgok := constructor; [split; zc|split; zc|zc| |]; cbn; intros ? E; first [discriminate E | apply some_inj in E; subst; zc].
Ltac holds := unfold bank_holds; repeat (split; [zc|]); zc.

(** The check does not hold if the oracle price and the stable price differ: the cache is built with the weight scaled at the higher
    price, and updated with the weight scaled at the lower one.  1000 of deposits count in full, 2000 are deposited, at prices 1 and 2:
    the account withdraws half of its collateral of 100 against a loan of 10, from health 8 to health -1.7. *)
Definition rf_cfg : wcfg := mv_cfg 0 80 120 (Some (of_int 1000 * fone)).
Definition rf_bank : bank := mv_bank (ex_tpos 100) 1900.
Definition rf_pos : list pos_in := [mv_pos rf_cfg rf_bank (ex_tpos 100) (mkPr fone (of_int 2)); mkPosIn true true false (tok_w 1 80 120 (-10))].
Theorem C85_price_refuted : exists e b p L o L' hc hc' pre post,
  wcfg_ok (we_cfg e) /\ wc_init_aw (we_cfg e) <= wc_init_lw (we_cfg e) /\ bank_holds b p /\ NoDup (pos_ids L) /\ Forall position_ok L /\
  positions_with (we_cfg e) b p L = Some L /\ we_region e = false /\
  withdraw_ix e b p L [] [] false 0 50 false = Some o /\ positions_with (we_cfg e) (wo_bank o) (wo_pos o) L = Some L' /\
  build_cache true L [] [] = Some hc /\ health hc HInit = Some pre /\ build_cache true L' [] [] = Some hc' /\ health hc' HInit = Some post /\
  of_int 7 < pre /\ post < of_int (-1).
Proof.
  exists (mv_env rf_cfg false), rf_bank, (ex_tpos 100), rf_pos. eexists. eexists. eexists. eexists. eexists. eexists.
  split; [cfgok|]. split; [zc|]. split; [holds|]. split; [vm_compute; repeat constructor; cbn; intuition discriminate|]. split; [posok rf_pos|]. split; [vm_compute; reflexivity|].
  split; [reflexivity|]. split; [vm_compute; reflexivity|]. split; [vm_compute; reflexivity|].
  split; [vm_compute; reflexivity|]. split; [vm_compute; reflexivity|]. split; [vm_compute; reflexivity|]. split; [vm_compute; reflexivity|]. split; zc.
Qed.
Print Assumptions C85_price_refuted.

(** Nor with open spot orders: leaving out a token of weight zero whose market has an order lets a withdraw pass that brings the
    account's health from 5 to -5. *)
Definition ro_cfg : wcfg := mv_cfg 3 100 120 None.
Definition ro_bank : bank := mv_bank (ex_tpos 15) 1000.
Definition ro_pos : list pos_in := mv_pos ro_cfg ro_bank (ex_tpos 15) (mkPr fone fone) :: skip_pos.
Theorem C85_orders_refuted : exists e b p L O o L' hf hf' y y',
  wcfg_ok (we_cfg e) /\ wc_init_aw (we_cfg e) <= wc_init_lw (we_cfg e) /\ bank_holds b p /\ NoDup (pos_ids L) /\ Forall position_ok L /\ Forall free_ok O /\
  positions_with (we_cfg e) b p L = Some L /\ same_scaling (we_cfg e) L /\ we_region e = false /\
  withdraw_ix e b p L O [] false 0 10 false = Some o /\ positions_with (we_cfg e) (wo_bank o) (wo_pos o) L = Some L' /\
  build_cache false (map complete L) O [] = Some hf /\ health hf HInit = Some y /\ build_cache false (map complete L') O [] = Some hf' /\ health hf' HInit = Some y' /\
  of_int 4 < y /\ y' < of_int (-4).
Proof.
  exists (mv_env ro_cfg false), ro_bank, (ex_tpos 15), ro_pos, skip_markets. eexists. eexists. eexists. eexists. eexists. eexists.
  split; [cfgok|]. split; [zc|]. split; [holds|]. split; [vm_compute; repeat constructor; cbn; intuition discriminate|]. split; [unfold ro_pos; posok skip_pos|].
  split; [repeat (apply Forall_cons || apply Forall_nil); split; zc|]. split; [vm_compute; reflexivity|].
  split; [left; reflexivity|]. split; [reflexivity|]. split; [vm_compute; reflexivity|]. split; [vm_compute; reflexivity|].
  split; [vm_compute; reflexivity|]. split; [vm_compute; reflexivity|]. split; [vm_compute; reflexivity|]. split; [vm_compute; reflexivity|]. split; zc.
Qed.
Print Assumptions C85_orders_refuted.

(** a borrow of 20 by an account whose other tokens are not all passed: health with the known ones falls from 100 to 75, with all from 180 to 155 *)
Definition ex_cfg : wcfg := mv_cfg 0 80 120 (Some (of_int 1000 * fone)).
Definition ex_mbank : bank := mv_bank (ex_tpos 0) 1900.
Definition ex_mpos : list pos_in := [mv_pos ex_cfg ex_mbank (ex_tpos 0) (mkPr fone fone); mkPosIn true true true (tok_w 1 100 120 100); mkPosIn false true true (tok_w 2 80 120 100)].
Example C85_example : exists o L' hf hf' hs' y y' x',
  wcfg_ok ex_cfg /\ wc_init_aw ex_cfg <= wc_init_lw ex_cfg /\ wc_maint_aw ex_cfg <= wc_maint_lw ex_cfg /\ bank_holds ex_mbank (ex_tpos 0) /\ NoDup (pos_ids ex_mpos) /\ Forall position_ok ex_mpos /\
  same_scaling ex_cfg ex_mpos /\ positions_with ex_cfg ex_mbank (ex_tpos 0) ex_mpos = Some ex_mpos /\
  withdraw_ix (mv_env ex_cfg false) ex_mbank (ex_tpos 0) ex_mpos [] [] true 7 20 true = Some o /\
  positions_with ex_cfg (wo_bank o) (wo_pos o) ex_mpos = Some L' /\
  wo_paid o = 20 /\ wo_flag o = false /\ wo_net o = -13 /\ wo_cache o = Some hs' /\ health hs' HInit = Some x' /\ to_int x' = 75 /\
  build_cache false (map complete ex_mpos) [] [] = Some hf /\ health hf HInit = Some y /\ build_cache false (map complete L') [] [] = Some hf' /\ health hf' HInit = Some y' /\
  to_int y = 179 /\ to_int y' = 155.
Proof.
  eexists. eexists. eexists. eexists. eexists. eexists. eexists. eexists. split; [cfgok|]. split; [zc|]. split; [zc|]. split; [holds|]. split; [vm_compute; repeat constructor; cbn; intuition discriminate|].
  split; [posok ex_mpos|]. split; [right; intros q [<-|[<-|[<-|[]]]] _; vm_compute; reflexivity|]. do 14 (split; [vm_compute; reflexivity|]). vm_compute; reflexivity.
Qed.

(** ** C86 *)
(** What is taken in, and when: a new position only with a trusted price and only by token_deposit, which alone closes positions; no more
    than asked for; the balance never falls; while deposits are in reduce-only mode, only to repay a loan; the deposit limit of the token holds if the
    position ends with a deposit. *)
Theorem C86_conditions : forall e existing b p L O P flag net amount ro o, bank_holds b p -> deposit_ix e existing b p L O P flag net amount ro = Some o ->
  0 < amount /\ (de_exists e = true \/ (existing = false /\ de_price_ok e = true)) /\
  0 <= do_paid o <= amount /\ (ro = false -> do_paid o = amount) /\
  (ro = true \/ deposits_reduce_only b = true -> of_int (do_paid o) < Z.max (- native b p) 0 + fone) /\
  t_ix p <= t_ix (do_pos o) /\ native b p <= native (do_bank o) (do_pos o) /\
  (0 < t_ix (do_pos o) -> check_deposit_and_oo_limit (do_bank o) = true) /\
  (do_closed o = true -> existing = false /\ t_ix (do_pos o) = 0) /\
  do_net o = net + to_int (fmul (of_int (do_paid o)) (de_price e)).
Proof.
  intros e existing b p L O P flag net amount ro o BH H. apply deposit_ix_inv in H as (EX & act & L' & T & CL & NET & _).
  pose proof (token_deposit_moved _ _ _ _ _ _ _ _ _ BH T) as (_ & LE & _ & _ & _ & NL & AC). apply token_deposit_inv in T as (A & X). cbv zeta in X. destruct X as (_ & PD & RO & LIM).
  pose proof fone_pos as F. unfold fceil in PD, RO. set (z := Z.abs (Z.min (native b p) 0)) in *. assert (Zn : z = Z.max (- native b p) 0) by (unfold z; lia). assert (Z0 : 0 <= z) by lia.
  assert (CE : z <= - (- z / fone) * fone < z + fone) by (pose proof (Z.div_mod (- z) fone ltac:(lia)); pose proof (Z.mod_pos_bound (- z) fone F); lia). unfold of_int in *. set (k := - (- z / fone)) in *.
  assert (MI : forall a, to_int (a * fone) = a) by (intros a; unfold to_int; apply Z.div_mul; lia).
  assert (MM : Z.min (k * fone) (amount * fone) = Z.min k amount * fone) by (destruct (Z.min_spec k amount) as [[? ->]|[? ->]]; nia).
  assert (K0 : 0 <= k) by nia. split; [exact A|]. split; [exact EX|].
  assert (PV : do_paid o = if ro || deposits_reduce_only b then Z.min k amount else amount) by (rewrite PD; destruct (ro || deposits_reduce_only b); [rewrite MM|]; apply MI).
  split; [rewrite PV; destruct (ro || _); lia|]. split.
  { intros ->. cbn [orb] in *. destruct (deposits_reduce_only b) eqn:E; [|exact PV]. specialize (RO eq_refl eq_refl). rewrite PD, RO. apply MI. }
  split. { intros [Q|Q]; rewrite Q in PV; [cbn [orb] in PV|rewrite orb_true_r in PV]; rewrite PV; nia. }
  split; [exact LE|]. split; [exact NL|]. split; [exact LIM|]. split; [|exact NET]. intros Q. rewrite CL in Q. apply andb_prop in Q as [Q1 Q2]. apply negb_true_iff in Q1, Q2. auto.
Qed.
Print Assumptions C86_conditions.

(** A deposit into an account marked as being liquidated must end that: the liquidation-end health afterwards, with all of the account's
    tokens, is above -1 (if nothing is reserved in open spot orders).  Otherwise the mark stays as it is. *)
Theorem C86_recovers : forall e existing b p L O P flag net amount ro o, deposit_ix e existing b p L O P flag net amount ro = Some o ->
  (de_region e = false -> do_flag o = false) /\ (flag = false \/ de_region e = true -> do_flag o = flag) /\
  exists L', positions_with (de_cfg e) (do_bank o) (do_pos o) L = Some L' /\ build_cache true L' O P = Some (do_cache o) /\
  (flag = true -> de_region e = false -> exists h, health (do_cache o) HLiqEnd = Some h /\ - fone < h /\
     forall hf y, wcfg_ok (de_cfg e) -> bank_holds b p -> NoDup (pos_ids L) -> Forall position_ok L -> Forall free_ok O -> Forall all_free O ->
       build_cache false (map complete L') O P = Some hf -> health hf HLiqEnd = Some y -> - fone < y).
Proof.
  intros e existing b p L O P flag net amount ro o H. apply deposit_ix_inv in H as (EX & act & L' & T & CL & NET & PW & BC & FL & _).
  split; [|split]; [| |exists L'; split; [exact PW|split; [exact BC|]]].
  - intros R. rewrite R in FL. cbn [negb andb] in FL. destruct flag; [destruct FL as (h & _ & _ & E); exact E|exact FL].
  - intros [->| R]; [rewrite andb_false_r in FL; exact FL|]. rewrite R in FL. cbn [negb andb] in FL. exact FL.
  - intros -> R. rewrite R in FL. cbn [negb andb] in FL. destruct FL as (h & Hh & HL & _). exists h. split; [exact Hh|]. split; [exact HL|].
    intros hf y W BH ND PO FO AF BF HF. apply (token_deposit_moved _ _ _ _ _ _ _ _ _ BH) in T as (BH' & _). pose proof (pw_ok _ _ _ _ _ W BH' PO PW) as PO'. pose proof (pw_map _ _ _ _ _ PW) as PM.
    assert (ND' : NoDup (map (fun q => ti_index (pin_info q)) L')) by (rewrite PM; exact ND). pose proof (skipped_health L' O P _ hf HLiqEnd h y PO' FO AF ND' BC BF Hh HF). lia.
Qed.
Print Assumptions C86_recovers.

(** If the group limits deposits, all of the account's tokens must be passed, and their deposits at init weights and prices are below the
    limit plus one. *)
Lemma fold_assets hc ty T : Forall token_ok T -> forall tot, fst (fold_left (token_assets_liabs hc ty true) T tot) >= fst tot + sum (map (fun t => fmul (Z.max (ti_spot t) 0) (asset_wp t ty)) T).
Proof.
  induction 1 as [|t T Ht F IH]; intros tot; cbn [fold_left map]; [change (sum []) with 0; lia|]. rewrite sum_cons. specialize (IH (token_assets_liabs hc ty true tot t)).
  enough (fst tot + fmul (Z.max (ti_spot t) 0) (asset_wp t ty) <= fst (token_assets_liabs hc ty true tot t)) by lia. unfold token_assets_liabs. destruct (token_split hc ty t) as [a l] eqn:E. cbn [fst].
  enough (fmul (Z.max (ti_spot t) 0) (asset_wp t ty) <= fmul a (asset_wp t ty)) by lia. destruct (asset_wp_le t ty ty (stricter_refl ty) Ht) as [A _]. apply fmul_mono; [|lia]. split; [lia|].
  unfold token_split in E. assert (G : forall P al, fst al <= fst (fold_left (fun al pi => if pi_settle pi =? ti_index t then split_add al (hupnl pi ty) else al) P al)).
  { clear. induction P as [|pi P IH]; intros al; cbn [fold_left]; [lia|]. eapply Z.le_trans; [|apply IH]. destruct (_ =? _); [|lia]. unfold split_add. destruct (Z.ltb_spec 0 (hupnl pi ty)); cbn [fst]; lia. }
  specialize (G (hc_perps hc) (split_add (0, 0) (ti_spot t))). rewrite E in G. cbn [fst] in G. eapply Z.le_trans; [|exact G]. unfold split_add. destruct (Z.ltb_spec 0 (ti_spot t)); cbn [fst]; lia.
Qed.
Lemma fold_split_up C : forall al, fst al <= fst (fold_left split_add C al).
Proof. induction C as [|c C IH]; intros al; cbn [fold_left]; [lia|]. eapply Z.le_trans; [|apply IH]. unfold split_add. destruct (Z.ltb_spec 0 c); cbn [fst]; lia. Qed.
Lemma keep_le L : (length (filter keep L) <= length L)%nat.
Proof. induction L as [|q L IH]; [cbn; lia|]. cbn [filter]. destruct (keep q); cbn [length]; lia. Qed.
Theorem C86_limit : forall e existing b p L O P flag net amount ro o, wcfg_ok (de_cfg e) -> bank_holds b p -> Forall position_ok L ->
  deposit_ix e existing b p L O P flag net amount ro = Some o -> 0 < de_limit e ->
  length (hc_tokens (do_cache o)) = length L /\ map ti_index (hc_tokens (do_cache o)) = pos_ids L /\
  sum (map (fun t => fmul (Z.max (ti_spot t) 0) (asset_wp t HInit)) (hc_tokens (do_cache o))) < of_int (de_limit e + 1).
Proof.
  intros e existing b p L O P flag net amount ro o W BH PO H LM. apply deposit_ix_inv in H as (EX & act & L' & T & CL & NET & PW & BC & FL & X). destruct (X LM) as (LN & a & l & AL & LE).
  apply (token_deposit_moved _ _ _ _ _ _ _ _ _ BH) in T as (BH' & _). pose proof (pw_ok _ _ _ _ _ W BH' PO PW) as PO'. pose proof (pw_map _ _ _ _ _ PW) as PM.
  assert (LL : length L' = length L) by (rewrite <- (map_length (fun q => ti_index (pin_info q)) L'), PM, map_length; reflexivity). split; [congruence|].
  unfold build_cache in BC. destruct (build_tokens true L') as [T0|] eqn:BT; [|discriminate]. destruct (build_serum true O T0) as [[T1 R1]|] eqn:BS; [|discriminate]. match type of BC with (if ?c then _ else _) = _ => destruct c; [discriminate BC|] end. apply some_inj in BC.
  pose proof (build_tokens_skip [] L' T0 BT PO' ltac:(intros ? ? ? [])) as [ET _]. pose proof (build_serum_idx _ _ _ _ _ BS) as EI.
  assert (TOK : Forall token_ok (hc_tokens (do_cache o))).
  { rewrite <- BC. cbn [hc_tokens]. eapply build_serum_ok; [exact BS|]. subst T0. apply Forall_forall. intros t I. apply in_map_iff in I as (q & <- & Iq). apply filter_In in Iq as [Iq _]. rewrite Forall_forall in PO'. apply PO', Iq. }
  split.
  - rewrite <- BC. cbn [hc_tokens]. rewrite EI, ET. rewrite <- BC in LN. cbn [hc_tokens] in LN. assert (LT : length (filter keep L') = length L') by (rewrite <- LN, <- (map_length ti_index T1), EI, ET, !map_length; reflexivity).
    unfold pos_ids. rewrite <- PM, map_map. f_equal. clear - LT. induction L' as [|q L' IH]; [reflexivity|]. cbn [filter] in *. destruct (keep q); cbn [length] in LT; [f_equal; apply IH; lia|].
    pose proof (keep_le L'). lia.
  - unfold assets_and_liabs in AL. destruct (balances _ _ _) as [B|]; [|discriminate]. destruct (serum_contributions _ _ _) as [C|]; [|discriminate]. apply some_inj in AL.
    pose proof (fold_assets (do_cache o) HInit _ TOK (0, 0)) as G. cbn [fst] in G. pose proof (fold_split_up C (fold_left (token_assets_liabs (do_cache o) HInit true) (hc_tokens (do_cache o)) (0, 0))) as G2. rewrite AL in G2. cbn [fst] in G2.
    unfold to_int in LE. unfold of_int. pose proof fone_pos as F. pose proof (Z.div_mod a fone ltac:(lia)). pose proof (Z.mod_pos_bound a fone F). nia.
Qed.
Print Assumptions C86_limit.

(** Without open spot orders, a deposit does not lower the account's maintenance or liquidation-end health. *)
Theorem C86_never_lowers : forall e existing b p L O P flag net amount ro o L' ty hf y hf' y', ty <> HInit ->
  bank_holds b p -> NoDup (pos_ids L) -> Forall position_ok L -> Forall free_ok O -> Forall all_free O ->
  positions_with (de_cfg e) b p L = Some L -> positions_with (de_cfg e) (do_bank o) (do_pos o) L = Some L' ->
  deposit_ix e existing b p L O P flag net amount ro = Some o ->
  build_cache false (map complete L) O P = Some hf -> health hf ty = Some y ->
  build_cache false (map complete L') O P = Some hf' -> health hf' ty = Some y' -> y <= y'.
Proof.
  intros e existing b p L O P flag net amount ro o L' ty hf y hf' y' TY BH ND PO FO AF S S' H BF HF BF' HF'.
  apply deposit_ix_inv in H as (EX & act & L1 & T & _ & _ & PW & _). rewrite S' in PW. apply some_inj in PW. subst L1. apply (token_deposit_moved _ _ _ _ _ _ _ _ _ BH) in T as (BH' & _ & _ & _ & _ & NL & _).
  destruct (in_dec Z.eq_dec (wc_index (de_cfg e)) (pos_ids L)) as [IN|NI].
  - apply in_map_iff in IN as (q & E0 & Iq).
    assert (WW : exists w, scaled_init_asset_weight (de_cfg e) (do_bank o) (liab_price (ti_prices (pin_info q)) HInit) = Some (fst w) /\ scaled_init_liab_weight (de_cfg e) (do_bank o) (liab_price (ti_prices (pin_info q)) HInit) = Some (snd w)).
    { clear - Iq E0 S'. revert L' S'. induction L as [|a L IH]; intros L' S'; [destruct Iq|]. cbn [positions_with] in S'. destruct (positions_with _ _ _ L) as [RR|]; [|discriminate]. destruct Iq as [->|Iq]; [|eapply (IH Iq); reflexivity].
      rewrite E0, Z.eqb_refl in S'. unfold token_info in S'. destruct (scaled_init_asset_weight _ _ _) as [aw|]; [|discriminate]. destruct (scaled_init_liab_weight _ _ _) as [lw|]; [|discriminate]. exists (aw, lw). auto. }
    destruct WW as (w & WW). set (d := native (do_bank o) (do_pos o) - native b p) in *.
    assert (EL : L' = map (pos_bump (wc_index (de_cfg e)) d w (0 <=? t_ix (do_pos o))) L).
    { unfold d. eapply pw_bump; [exact ND|exact S|exact S'|]. intros q' I' E'. assert (q' = q); [|subst; exact WW]. clear - ND Iq I' E0 E'. induction L as [|a L IH]; [destruct Iq|]. unfold pos_ids in *. cbn [map] in ND. inversion ND as [|? ? NI ND']; subst.
      destruct Iq as [<-|Iq], I' as [<-|I']; [reflexivity| | |apply IH; assumption]; exfalso; apply NI; apply in_map_iff; [exists q'|exists q]; (split; [congruence|assumption]). }
    assert (NC : NoDup (map (fun q => ti_index (pin_info q)) (map complete L))) by (rewrite map_map; exact ND).
    assert (FT : no_reserved hf /\ NoDup (map ti_index (hc_tokens hf)) /\ Forall token_ok (hc_tokens hf) /\ map ti_index (hc_tokens hf) = pos_ids L).
    { clear - BF PO AF ND. unfold build_cache in BF. rewrite build_tokens_full in BF. destruct (build_serum false O (map pin_info L)) as [[T2 R2]|] eqn:E2; [|discriminate]. cbn [andb] in BF. apply some_inj in BF; subst hf.
      unfold no_reserved. cbn [hc_tokens hc_serum]. split; [exact (build_serum_free _ _ AF _ _ _ E2)|]. rewrite (build_serum_idx _ _ _ _ _ E2), map_map. split; [exact ND|]. split; [|reflexivity].
      eapply build_serum_ok; [exact E2|]. clear -PO. induction PO as [|p L [H _] _ IH]; constructor; assumption. }
    destruct FT as (R2 & N2 & TO & IX).
    assert (IN : In (wc_index (de_cfg e)) (map ti_index (hc_tokens hf))) by (rewrite IX; apply in_map_iff; exists q; auto).
    destruct (token_pos (hc_tokens hf) (wc_index (de_cfg e))) as [j|] eqn:TJ; [|apply token_pos_in in IN; contradiction].
    assert (AF2 : exists hf2, adjust_token_balance hf (wc_index (de_cfg e)) d w = Some hf2) by (unfold adjust_token_balance; rewrite TJ; eexists; reflexivity). destruct AF2 as (hf2 & AF2).
    pose proof (adjust_built false (map complete L) O P hf (wc_index (de_cfg e)) d w (0 <=? t_ix (do_pos o)) hf2 NC BF AF2) as BF2. rewrite <- complete_bump, <- EL, BF' in BF2. apply some_inj in BF2. subst hf2.
    destruct (adjusted_plain _ _ _ _ _ _ _ R2 N2 AF2 HF') as (j' & TJ' & E4). pose proof (plain_health _ _ _ R2 N2 HF) as E2.
    assert (D0 : 0 <= d) by (unfold d; lia). pose proof (bump_up (hc_perps hf) ty (hc_tokens hf) j' d w TY TO D0) as UP. cbv beta zeta in UP. rewrite <- E2, <- E4 in UP. exact UP.
  - assert (EL : L' = L). { clear - NI S'. revert L' S'. induction L as [|a L IH]; intros L' S'; cbn [positions_with] in S'; [apply some_inj in S'; auto|]. unfold pos_ids in NI. cbn [map In] in NI. destruct (positions_with _ _ _ L) as [RR|]; [|discriminate].
      destruct (Z.eqb_spec (ti_index (pin_info a)) (wc_index (de_cfg e))); [tauto|]. apply some_inj in S'. subst L'. f_equal. apply IH; [unfold pos_ids; tauto|reflexivity]. }
    subst L'. rewrite BF in BF'. apply some_inj in BF'. subst hf'. rewrite HF in HF'. apply some_inj in HF'. lia.
Qed.
Print Assumptions C86_never_lowers.

(** With open spot orders it can: "depositing can only increase health" (token_deposit.rs:138) does not hold.  An account with a loan of
    20 and two bids of 10 in the token of the loan deposits 10 of it, and becomes liquidatable. *)
Definition de_env (c : wcfg) (limit : Z) : denv := mkDE c 50 fone true false limit true.
Definition rd_cfg : wcfg := mv_cfg 1 20 120 None.
Definition rd_bank : bank := mv_bank (ex_tpos (-20)) 1000.
Definition rd_pos : list pos_in := [mkPosIn true true true (tok_w 0 100 100 0); mv_pos rd_cfg rd_bank (ex_tpos (-20)) (mkPr fone fone); mkPosIn true true true (tok_w 2 100 100 0); mkPosIn true true true (tok_w 3 100 100 5)].
Theorem C86_orders_refuted : exists e b p L O o L' hf hf' y y',
  wcfg_ok (de_cfg e) /\ bank_holds b p /\ NoDup (pos_ids L) /\ Forall position_ok L /\ Forall free_ok O /\ positions_with (de_cfg e) b p L = Some L /\ de_region e = false /\
  deposit_ix e false b p L O [] false 0 10 false = Some o /\ positions_with (de_cfg e) (do_bank o) (do_pos o) L = Some L' /\
  build_cache false (map complete L) O [] = Some hf /\ health hf HMaint = Some y /\ build_cache false (map complete L') O [] = Some hf' /\ health hf' HMaint = Some y' /\
  0 < y /\ y' < of_int (-2).
Proof.
  exists (de_env rd_cfg 0), rd_bank, (ex_tpos (-20)), rd_pos, skip_markets. eexists. eexists. eexists. eexists. eexists. eexists.
  split; [cfgok|]. split; [holds|]. split; [vm_compute; repeat constructor; cbn; intuition discriminate|]. split; [posok rd_pos|].
  split; [repeat (apply Forall_cons || apply Forall_nil); split; zc|]. do 8 (split; [vm_compute; reflexivity|]). split; zc.
Qed.
Print Assumptions C86_orders_refuted.

(** an account marked as being liquidated repays 10 of a loan of 20 and recovers, with a group limit of 12 *)
Definition dx_pos : list pos_in := [mv_pos rd_cfg rd_bank (ex_tpos (-20)) (mkPr fone fone); mkPosIn true true true (tok_w 3 100 100 12)].
Example C86_example : exists o L' hf hf' y y',
  wcfg_ok rd_cfg /\ bank_holds rd_bank (ex_tpos (-20)) /\ NoDup (pos_ids dx_pos) /\ Forall position_ok dx_pos /\ positions_with rd_cfg rd_bank (ex_tpos (-20)) dx_pos = Some dx_pos /\
  deposit_ix (de_env rd_cfg 12) true rd_bank (ex_tpos (-20)) dx_pos [] [] true 0 10 false = Some o /\ positions_with rd_cfg (do_bank o) (do_pos o) dx_pos = Some L' /\
  do_flag o = false /\ do_paid o = 10 /\ do_net o = 10 /\
  build_cache false (map complete dx_pos) [] [] = Some hf /\ health hf HLiqEnd = Some y /\ build_cache false (map complete L') [] [] = Some hf' /\ health hf' HLiqEnd = Some y' /\ to_int y = -13 /\ to_int y' = 0.
Proof.
  eexists. eexists. eexists. eexists. eexists. eexists. split; [cfgok|]. split; [holds|]. split; [vm_compute; repeat constructor; cbn; intuition discriminate|]. split; [posok dx_pos|].
  do 11 (split; [vm_compute; reflexivity|]). vm_compute; reflexivity.
Qed.
