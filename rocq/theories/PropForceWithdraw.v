(** C99: forced withdrawals. *)
From Coq Require Import List ZArith Lia Bool Arith.
From Verif Require Import Interest InterestFacts Bank BankSpec BankFacts BankResults Health HealthSpec HealthDiv HealthFacts HealthMore HealthSkip LiqState TokenLiq TokenLiqFacts SerumCache
  Scaling ScalingFacts PropScaling TokenMove TokenMoveFacts PropInterest PropBank PropHealth PropTokenLiq PropTokenMove PropPerpLiqNeg SettleIxFacts PropSettleIx Auth PropAuth ForceWithdraw Fixed.
From Verif Require AdminEdit.
Import ListNotations.
Open Scope Z_scope.

Record fw_spec (e : tenv) (a : auth) (forced : bool) (b : bank) (p : tpos) (vault : Z) (price : fx) (net : Z) (o : fwout) : Prop := {
  fs_moved : moved b (fw_bank o) p (fw_pos o);
  fs_native : 0 <= native (fw_bank o) (fw_pos o) <= native b p;
  fs_ix : 0 <= t_ix (fw_pos o) <= t_ix p;
  fs_active : fw_active o = false -> t_ix (fw_pos o) = 0;
  fs_paid : of_int (fw_paid o) <= native b p < of_int (fw_paid o) + fone;
  fs_vault : 0 <= fw_paid o <= vault;
  fs_use : native_borrows (fw_bank o) <= native_deposits (fw_bank o);
  fs_target : tk_owner (fw_target o) = au_owner a;
  fs_forced : forced = true /\ operational e a = true;
  fs_fees : b_fees (fw_bank o) = b_fees b;
  fs_net : fw_net o = net - to_int (fmul (of_int (fw_paid o)) price) }.
Lemma fw_inv e a oata alt ata forced b p vault price net o : bank_holds b p ->
  force_withdraw e a oata alt ata forced b p vault price net = Some o -> fw_spec e a forced b p vault price net o.
Proof.
  intros BH H. assert (Ix : index_ok b) by (destruct BH as (D & B & _); split; assumption). assert (Lo : 0 <= b_lof b) by apply BH.
  unfold force_withdraw in H. destruct (force_withdraw_ix e a oata alt ata forced b p vault) as [[[[[b' p'] act] target] paid]|] eqn:F; [|discriminate]. apply some_inj in H. subst o.
  cbn [fw_bank fw_pos fw_active fw_target fw_paid fw_net].
  destruct (C45_force_withdraw e a oata alt ata forced b b' p p' vault act target paid Ix Lo F) as (T1 & T2 & T3 & T4 & T5 & T6).
  unfold force_withdraw_ix in F. destruct (operational e a) eqn:OPQ; cbn [guard] in F; [|discriminate]. destruct (guard (_ && _)); [|discriminate]. destruct forced; cbn [guard] in F; [|discriminate].
  destruct (Z.leb_spec 0 (native b p)) as [N|]; cbn [guard] in F; [|discriminate]. unfold withdraw_without_fee in F. destruct (withdraw_internal _ _ _ _ _ _) as [[[b1 p1] r]|] eqn:W; [|discriminate].
  destruct (Z.leb_spec (to_int (native b p)) vault) as [V|]; cbn [guard] in F; [|discriminate]. destruct (enforce_max_utilization b1 fone) eqn:U; cbn [guard] in F; [|discriminate].
  apply some_inj in F. do 4 (apply pair_equal_spec in F as [F ?]). subst b1 p1 act target paid.
  apply withdraw_spec in W as (X0 & M & LE & _ & FE & WF & _ & _ & AC & _); [|exact Ix|exact Lo]. cbn [andb] in WF. rewrite WF in FE.
  pose proof (native_le b b' p p' Ix (mv_di _ _ _ _ M) (mv_bi _ _ _ _ M) LE) as NL.
  constructor; cbn [fw_bank fw_pos fw_active fw_target fw_paid fw_net].
  - exact M.
  - split; [|exact NL]. unfold native. destruct (Z.ltb_spec 0 (t_ix p')); [apply fmul_nonneg; [lia|rewrite (mv_di _ _ _ _ M); destruct Ix; lia]|]. replace (t_ix p') with 0 by lia. rewrite fmul_0_l. lia.
  - exact T6.
  - intros A. exact (proj1 (proj2 (proj2 (AC A)))).
  - lia.
  - split; [exact T4|exact V].
  - unfold enforce_max_utilization in U. apply negb_true_iff, Z.ltb_ge in U. unfold fone in U at 1. change (2 ^ 48) with (1 * 2 ^ 48) in U. change (1 * 2 ^ 48) with (of_int 1) in U. rewrite fmul_int_l in U. lia.
  - exact T3.
  - split; [reflexivity|exact OPQ].
  - lia.
  - reflexivity.
Qed.

(** ** amounts *)
(** A forced withdrawal needs no signature, but the force-withdraw flag of the bank.  It pays all whole tokens of a position that is
    not negative to a token account of the owner; less than one token remains, never a borrow.  No fee is taken.  It fails if the vault
    holds too little, or if borrows would exceed deposits. *)
Theorem C99_amounts : forall e a oata alt ata forced b p vault price net o, bank_holds b p ->
  force_withdraw e a oata alt ata forced b p vault price net = Some o ->
  forced = true /\ operational e a = true /\ tk_owner (fw_target o) = au_owner a /\
  0 <= fw_paid o <= vault /\ of_int (fw_paid o) <= native b p < of_int (fw_paid o) + fone /\
  0 <= native (fw_bank o) (fw_pos o) <= native b p /\ (fw_active o = false -> t_ix (fw_pos o) = 0) /\
  b_dep (fw_bank o) - b_dep b = t_ix (fw_pos o) - t_ix p /\ b_bor (fw_bank o) = b_bor b /\ b_fees (fw_bank o) = b_fees b /\
  native_borrows (fw_bank o) <= native_deposits (fw_bank o) /\
  fw_net o = net - to_int (fmul (of_int (fw_paid o)) price).
Proof.
  intros e a oata alt ata forced b p vault price net o BH H. apply (fw_inv _ _ _ _ _ _ _ _ _ _ _ _ BH) in H. destruct H as [M N I A P V U T [F1 F2] FE NT].
  split; [exact F1|]. split; [exact F2|]. split; [exact T|]. split; [exact V|]. split; [exact P|]. split; [exact N|]. split; [exact A|].
  pose proof (mv_dep _ _ _ _ M). pose proof (mv_bor _ _ _ _ M). split; [lia|]. split; [lia|]. split; [exact FE|]. split; [exact U|exact NT].
Qed.
Print Assumptions C99_amounts.

(** ** health *)
Lemma sum_update_nth (T : list tinfo) (f : tinfo -> fx) (g : tinfo -> tinfo) : forall i t, nth_error T i = Some t -> sum (map f (update_nth T i g)) - sum (map f T) = f (g t) - f t.
Proof.
  induction T as [|u T IH]; intros [|i] t H; cbn [nth_error] in H; try discriminate; cbn [update_nth map]; rewrite !sum_cons.
  - apply some_inj in H. subst u. lia.
  - specialize (IH i t H). lia.
Qed.
Lemma token_pos_nth T idx i : token_pos T idx = Some i -> exists t, nth_error T i = Some t /\ ti_index t = idx /\ In t T.
Proof.
  revert i. induction T as [|u T IH]; intros i H; cbn [token_pos] in H; [discriminate|]. destruct (Z.eqb_spec (ti_index u) idx) as [E|E].
  - apply some_inj in H. subst i. exists u. split; [reflexivity|]. split; [exact E|left; reflexivity].
  - destruct (token_pos T idx) as [k|]; [|discriminate]. cbn [option_map] in H. apply some_inj in H. subst i. destruct (IH k eq_refl) as (t & A & B & C). exists t. split; [exact A|]. split; [exact B|right; exact C].
Qed.
Lemma pw_scaled c b p q : wc_dep_start c = None -> wc_bor_start c = None -> ti_index (pin_info q) = wc_index c -> forall L M, positions_with c b p L = Some M -> In q M ->
  ti_scaled_aw (pin_info q) = wc_init_aw c /\ ti_scaled_lw (pin_info q) = wc_init_lw c.
Proof.
  intros W1 W2 E0. induction L as [|a L IH]; intros M S I; cbn [positions_with] in S; [apply some_inj in S; subst M; destruct I|].
  destruct (positions_with c b p L) as [R|]; [|discriminate]. destruct (Z.eqb_spec (ti_index (pin_info a)) (wc_index c)) as [E|E].
  - unfold token_info in S. rewrite (proj1 (C84_unscaled c b _) W1), (proj2 (C84_unscaled c b _) W2) in S. apply some_inj in S. subst M. destruct I as [<-|I]; [split; reflexivity|exact (IH _ eq_refl I)].
  - apply some_inj in S. subst M. destruct I as [->|I]; [contradiction|exact (IH _ eq_refl I)].
Qed.
Lemma pw_native c b p q : ti_index (pin_info q) = wc_index c -> forall L M, positions_with c b p L = Some M -> In q M -> ti_spot (pin_info q) = native b p.
Proof.
  intros E0. induction L as [|a L IH]; intros M S I; cbn [positions_with] in S; [apply some_inj in S; subst M; destruct I|].
  destruct (positions_with c b p L) as [R|]; [|discriminate]. destruct (Z.eqb_spec (ti_index (pin_info a)) (wc_index c)) as [E|E].
  - unfold token_info in S. destruct (scaled_init_asset_weight _ _ _); [|discriminate]. destruct (scaled_init_liab_weight _ _ _); [|discriminate]. apply some_inj in S. subst M. destruct I as [<-|I]; [reflexivity|exact (IH _ eq_refl I)].
  - apply some_inj in S. subst M. destruct I as [->|I]; [contradiction|exact (IH _ eq_refl I)].
Qed.
Lemma spot_up T i x t : 0 <= x -> In t (add_spot_at T i x) -> exists u y, In u T /\ t = add_spot u y /\ 0 <= y.
Proof.
  intros X. revert i. induction T as [|u T IH]; intros [|i] H; cbn [add_spot_at] in H; [destruct H|destruct H| |].
  - destruct H as [<-|H]; [exists u, x; split; [left; reflexivity|auto]|exists t, 0; rewrite HealthSkip.add_spot_0; split; [right; exact H|split; [reflexivity|lia]]].
  - destruct H as [<-|H]; [exists u, 0; rewrite HealthSkip.add_spot_0; split; [left; reflexivity|split; [reflexivity|lia]]|]. destruct (IH i H) as (v & y & I & E). exists v, y. split; [right; exact I|exact E].
Qed.
Lemma serum_up skip O : Forall free_ok O -> forall T T' R, build_serum skip O T = Some (T', R) -> forall t, In t T' -> exists u y, In u T /\ t = add_spot u y /\ 0 <= y.
Proof.
  induction 1 as [|s O [F1 F2] FO IH]; intros T T' R H t I; cbn [build_serum] in H; [apply some_inj, pair_equal_spec in H as [<- _]; exists t, 0; rewrite HealthSkip.add_spot_0; split; [exact I|split; [reflexivity|lia]]|].
  destruct (token_pos T (sin_base s)) as [b|]; [destruct (token_pos T (sin_quote s)) as [q|]|].
  - destruct (new_sinfo _ _ _ _ _ _) as [si|]; [|discriminate]. destruct (build_serum skip O _) as [[T2 R2]|] eqn:E; [|discriminate]. apply some_inj, pair_equal_spec in H as [<- _].
    destruct (IH _ _ _ E t I) as (u & y & Iu & -> & Y). apply spot_up in Iu as (u1 & y1 & I1 & -> & Y1); [|apply of_int_nonneg; exact F2]. apply spot_up in I1 as (u2 & y2 & I2 & -> & Y2); [|apply of_int_nonneg; exact F1].
    exists u2, (y2 + (y1 + y)). split; [exact I2|]. rewrite !HealthSkip.add_spot_add. split; [f_equal; lia|lia].
  - destruct skip; [|discriminate]. eapply IH; eassumption.
  - destruct skip; [|discriminate]. eapply IH; eassumption.
Qed.
(** health after a change of one token position, without reserved spot funds *)
Lemma position_step c b b' p p' L L' O P ty hf y hf' y' : fixed_weights c ty ->
  NoDup (pos_ids L) -> Forall position_ok L -> Forall all_free O ->
  positions_with c b p L = Some L -> positions_with c b' p' L = Some L' ->
  build_cache false (map complete L) O P = Some hf -> health hf ty = Some y ->
  build_cache false (map complete L') O P = Some hf' -> health hf' ty = Some y' ->
  (~ In (wc_index c) (pos_ids L) -> y' = y) /\
  (In (wc_index c) (pos_ids L) -> exists t, In t (hc_tokens hf) /\ ti_index t = wc_index c /\ token_ok t /\
     let x := token_balance P ty t in y' - y = contribution t ty (x + (native b' p' - native b p)) - contribution t ty x).
Proof.
  intros FW ND PO AF S S' BF HF BF' HF'. split; intros IN.
  - assert (EL : L' = L).
    { clear - IN S'. revert L' S'. induction L as [|a L IH]; intros L' S'; cbn [positions_with] in S'; [apply some_inj in S'; auto|]. unfold pos_ids in IN. cbn [map In] in IN. destruct (positions_with _ _ _ L) as [RR|]; [|discriminate].
      destruct (Z.eqb_spec (ti_index (pin_info a)) (wc_index c)); [tauto|]. apply some_inj in S'. subst L'. f_equal. apply IH; [unfold pos_ids; tauto|reflexivity]. }
    subst L'. rewrite BF in BF'. apply some_inj in BF'. subst hf'. rewrite HF in HF'. apply some_inj in HF'. lia.
  - apply in_map_iff in IN as (q & E0 & Iq).
    assert (WW : exists w, scaled_init_asset_weight c b' (liab_price (ti_prices (pin_info q)) HInit) = Some (fst w) /\ scaled_init_liab_weight c b' (liab_price (ti_prices (pin_info q)) HInit) = Some (snd w)).
    { clear - Iq E0 S'. revert L' S'. induction L as [|a L IH]; intros L' S'; [destruct Iq|]. cbn [positions_with] in S'. destruct (positions_with _ _ _ L) as [RR|]; [|discriminate]. destruct Iq as [->|Iq]; [|eapply (IH Iq); reflexivity].
      rewrite E0, Z.eqb_refl in S'. unfold token_info in S'. destruct (scaled_init_asset_weight _ _ _) as [aw|]; [|discriminate]. destruct (scaled_init_liab_weight _ _ _) as [lw|]; [|discriminate]. exists (aw, lw). auto. }
    destruct WW as (w & WW). set (d := native b' p' - native b p) in *.
    assert (UQ : forall q', In q' L -> ti_index (pin_info q') = wc_index c -> q' = q).
    { intros q' I' E'. clear - ND Iq I' E0 E'. induction L as [|a L IH]; [destruct Iq|]. unfold pos_ids in *. cbn [map] in ND. inversion ND as [|? ? NI ND']; subst.
      destruct Iq as [<-|Iq], I' as [<-|I']; [reflexivity| | |apply IH; assumption]; exfalso; apply NI; apply in_map_iff; [exists q'|exists q]; (split; [congruence|assumption]). }
    assert (EL : L' = map (pos_bump (wc_index c) d w (0 <=? t_ix p')) L).
    { unfold d. eapply pw_bump; [exact ND|exact S|exact S'|]. intros q' I' E'. rewrite (UQ q' I' E'). exact WW. }
    assert (NC : NoDup (map (fun q => ti_index (pin_info q)) (map complete L))) by (rewrite map_map; exact ND).
    assert (FT : no_reserved hf /\ NoDup (map ti_index (hc_tokens hf)) /\ Forall token_ok (hc_tokens hf) /\ map ti_index (hc_tokens hf) = pos_ids L /\ hc_perps hf = P).
    { clear - BF PO AF ND. unfold build_cache in BF. rewrite build_tokens_full in BF. destruct (build_serum false O (map pin_info L)) as [[T2 R2]|] eqn:E2; [|discriminate]. cbn [andb] in BF. apply some_inj in BF; subst hf.
      unfold no_reserved. cbn [hc_tokens hc_serum hc_perps]. split; [exact (build_serum_free _ _ AF _ _ _ E2)|]. rewrite (build_serum_idx _ _ _ _ _ E2), map_map. split; [exact ND|]. split; [|split; reflexivity].
      eapply build_serum_ok; [exact E2|]. clear -PO. induction PO as [|p L [H _] _ IH]; constructor; assumption. }
    destruct FT as (R2 & N2 & TO & IX & EP).
    assert (IN : In (wc_index c) (map ti_index (hc_tokens hf))) by (rewrite IX; apply in_map_iff; exists q; auto).
    destruct (token_pos (hc_tokens hf) (wc_index c)) as [j|] eqn:TJ; [|apply token_pos_in in IN; contradiction].
    assert (AF2 : exists hf2, adjust_token_balance hf (wc_index c) d w = Some hf2) by (unfold adjust_token_balance; rewrite TJ; eexists; reflexivity). destruct AF2 as (hf2 & AF2).
    pose proof (adjust_built false (map complete L) O P hf (wc_index c) d w (0 <=? t_ix p') hf2 NC BF AF2) as BF2. rewrite <- complete_bump, <- EL, BF' in BF2. apply some_inj in BF2. subst hf2.
    destruct (adjusted_plain _ _ _ _ _ _ _ R2 N2 AF2 HF') as (j' & TJ' & E4). rewrite TJ in TJ'. apply some_inj in TJ'. subst j'. pose proof (plain_health _ _ _ R2 N2 HF) as E2.
    destruct (token_pos_nth _ _ _ TJ) as (t & NT & It & Tin). exists t. split; [exact Tin|]. split; [exact It|]. rewrite Forall_forall in TO. split; [exact (TO t Tin)|]. cbv zeta.
    rewrite E2, E4, (sum_update_nth _ (fun t => contribution t ty (token_balance (hc_perps hf) ty t)) (bump d w) j t NT), EP.
    assert (EB : token_balance P ty (bump d w t) = token_balance P ty t + d) by (unfold token_balance; cbn [bump set_spot ti_spot ti_index]; lia). rewrite EB. f_equal.
    assert (EW : forall x, contribution (bump d w t) ty x = contribution t ty x).
    { intros x. destruct FW as [NI|[W1 W2]]; [destruct ty; [contradiction|reflexivity|reflexivity]|].
      destruct (build_cache_is _ _ _ _ _ _ BF Tin) as (q' & z & Iq' & Et). apply in_map_iff in Iq' as (q0 & <- & Iq0). cbn [complete pin_info] in Et.
      assert (q0 = q) by (apply UQ; [exact Iq0|rewrite <- It, Et; reflexivity]). subst q0.
      destruct WW as [WA WB]. rewrite (proj1 (C84_unscaled c b' _) W1) in WA. rewrite (proj2 (C84_unscaled c b' _) W2) in WB. apply some_inj in WA, WB.
      assert (SC : ti_scaled_aw (pin_info q) = wc_init_aw c /\ ti_scaled_lw (pin_info q) = wc_init_lw c).
      { exact (pw_scaled c b p q W1 W2 E0 L L S Iq). }
      unfold contribution, asset_wp, liab_wp, asset_weight, liab_weight. cbn [bump set_spot ti_scaled_aw ti_scaled_lw ti_init_aw ti_init_lw ti_maint_aw ti_maint_lw ti_prices].
      rewrite Et. cbn [add_spot ti_scaled_aw ti_scaled_lw ti_init_aw ti_init_lw ti_maint_aw ti_maint_lw ti_prices]. rewrite (proj1 SC), (proj2 SC), WA, WB. reflexivity. }
    apply EW.
Qed.

(** Nobody checks health.  A forced withdrawal never raises the account's health; it lowers it by at most the paid tokens and one more
    at the higher of the token's weighted prices; and not at all if the token counts nothing as an asset and no perp market settles in
    it.  (Without reserved spot order funds; initial health without weight scaling.) *)
Theorem C99_health : forall e a oata alt ata forced b p vault price net o c L L' O P ty hf y hf' y',
  force_withdraw e a oata alt ata forced b p vault price net = Some o -> bank_holds b p -> fixed_weights c ty ->
  NoDup (pos_ids L) -> Forall position_ok L -> Forall all_free O ->
  positions_with c b p L = Some L -> positions_with c (fw_bank o) (fw_pos o) L = Some L' ->
  build_cache false (map complete L) O P = Some hf -> health hf ty = Some y ->
  build_cache false (map complete L') O P = Some hf' -> health hf' ty = Some y' ->
  y' <= y /\
  exists m, (y - y') * fone < (of_int (fw_paid o) + fone) * m + fone /\ 0 <= m /\
    (m = 0 \/ exists t, In t (hc_tokens hf) /\ ti_index t = wc_index c /\ m = top_price t ty).
Proof.
  intros e a oata alt ata forced b p vault price net o c L L' O P ty hf y hf' y' H BH FW ND PO AF S S' BF HF BF' HF'.
  apply (fw_inv _ _ _ _ _ _ _ _ _ _ _ _ BH) in H. destruct (position_step _ _ _ _ _ _ _ _ _ _ _ _ _ _ FW ND PO AF S S' BF HF BF' HF') as [NO YES].
  pose proof fone_pos as FP. pose proof (fs_native _ _ _ _ _ _ _ _ _ H) as NN. pose proof (fs_paid _ _ _ _ _ _ _ _ _ H) as PD.
  destruct (in_dec Z.eq_dec (wc_index c) (pos_ids L)) as [I|I].
  - destruct (YES I) as (t & It & Et & TO & D). cbv zeta in D. set (d := native (fw_bank o) (fw_pos o) - native b p) in *. set (x := token_balance P ty t) in *.
    pose proof (contribution_le t ty ty (x + d) x (stricter_refl ty) TO ltac:(unfold d; lia)) as LE. split; [lia|].
    exists (top_price t ty). pose proof (contribution_step t ty x d (of_int (fw_paid o) + fone) 0 TO) as CS.
    assert (K : 0 <= of_int (fw_paid o) + fone) by (pose proof (fs_vault _ _ _ _ _ _ _ _ _ H); unfold of_int; nia). specialize (CS K ltac:(lia) ltac:(unfold d; lia)). rewrite <- D in CS.
    split; [lia|]. split; [|right; exists t; auto]. unfold top_price. pose proof (liab_wp_le t ty ty (stricter_refl ty) TO). lia.
  - rewrite (NO I). split; [lia|]. exists 0. split; [lia|]. split; [lia|left; reflexivity].
Qed.
Print Assumptions C99_health.
Theorem C99_harmless : forall e a oata alt ata forced b p vault price net o c L L' O P ty hf y hf' y',
  force_withdraw e a oata alt ata forced b p vault price net = Some o -> bank_holds b p -> fixed_weights c ty ->
  NoDup (pos_ids L) -> Forall position_ok L -> Forall all_free O -> Forall free_ok O ->
  positions_with c b p L = Some L -> positions_with c (fw_bank o) (fw_pos o) L = Some L' ->
  build_cache false (map complete L) O P = Some hf -> health hf ty = Some y ->
  build_cache false (map complete L') O P = Some hf' -> health hf' ty = Some y' ->
  (forall t, In t (hc_tokens hf) -> ti_index t = wc_index c -> asset_weight t ty = 0) -> ~ In (wc_index c) (map pi_settle P) ->
  y' = y.
Proof.
  intros e a oata alt ata forced b p vault price net o c L L' O P ty hf y hf' y' H BH FW ND PO AF FO S S' BF HF BF' HF' W0 NP.
  apply (fw_inv _ _ _ _ _ _ _ _ _ _ _ _ BH) in H. destruct (position_step _ _ _ _ _ _ _ _ _ _ _ _ _ _ FW ND PO AF S S' BF HF BF' HF') as [NO YES].
  pose proof (fs_native _ _ _ _ _ _ _ _ _ H) as NN.
  destruct (in_dec Z.eq_dec (wc_index c) (pos_ids L)) as [I|I]; [|exact (NO I)].
  destruct (YES I) as (t & It & Et & TO & D). cbv zeta in D.
  assert (EB : token_balance P ty t = ti_spot t).
  { unfold token_balance. rewrite Et. enough (sum (map (fun pi => if pi_settle pi =? wc_index c then hupnl pi ty else 0) P) = 0) by lia. clear - NP. induction P as [|pi P IH]; [reflexivity|]. cbn [map In] in NP |- *. rewrite sum_cons, IH by tauto. destruct (Z.eqb_spec (pi_settle pi) (wc_index c)); [tauto|reflexivity]. }
  assert (SP : native b p <= ti_spot t).
  { clear - BF S It Et FO ND. unfold build_cache in BF. rewrite build_tokens_full in BF. destruct (build_serum false O (map pin_info L)) as [[T2 R2]|] eqn:E2; [|discriminate]. cbn [andb] in BF. apply some_inj in BF; subst hf. cbn [hc_tokens] in It.
    destruct (serum_up false O FO _ _ _ E2 t It) as (u & z & Iu & Eu & Z0). subst t. cbn [add_spot ti_index ti_spot] in *. apply in_map_iff in Iu as (q & Eq & Iq). subst u.
    enough (ti_spot (pin_info q) = native b p) by lia. exact (pw_native c b p q Et L L S Iq). }
  assert (Z0 : forall x, 0 <= x -> contribution t ty x = 0).
  { intros x X. unfold contribution. destruct (Z.ltb_spec x 0); [lia|]. unfold asset_wp. rewrite (W0 t It Et), fmul_0_l. unfold fmul. rewrite Z.mul_0_r. reflexivity. }
  rewrite EB in D. rewrite !Z0 in D by lia. lia.
Qed.
Print Assumptions C99_harmless.

(** A bank whose settings the admin instructions accept has asset weights of zero if the flag is set. *)
Theorem C99_flag : forall s, AdminEdit.verify s = true -> AdminEdit.s_fw s = true -> AdminEdit.s_maw s = 0 /\ AdminEdit.s_iaw s = 0 /\ AdminEdit.s_ro s = 1.
Proof.
  intros s V F. unfold AdminEdit.verify in V. rewrite F in V. cbn [negb orb] in V. repeat (apply andb_prop in V as [V ?]).
  repeat match goal with H : _ && _ = true |- _ => apply andb_prop in H as [? ?] end.
  repeat match goal with H : (_ =? _) = true |- _ => apply Z.eqb_eq in H | H : (_ <=? _) = true |- _ => apply Z.leb_le in H end. lia.
Qed.
Print Assumptions C99_flag.

(** ** examples *)
Definition fw_cfg (aw : Z) : wcfg := mv_cfg 0 aw 120 None.
Definition fw_bank0 : bank := mv_bank (ex_tpos 60) 1000.
Definition fw_L (aw : Z) : list pos_in := [mv_pos (fw_cfg aw) fw_bank0 (ex_tpos 60) (mkPr fone fone); mkPosIn true true false (tok_w 1 100 120 (-20))].
Definition fw_run (vault : Z) : option fwout :=
  force_withdraw (mkTenv 100 [99] 50) ex_auth (mkTok 900 66) (mkTok 901 1) (fun o => 899 + o) true fw_bank0 (ex_tpos 60) vault (2 * fone) 100.
(** Even a token with asset weight zero can be needed: it pays for losses of perp positions that settle in it.  60 tokens cover a loss of
    50, 12 are deposited elsewhere; without them the loss counts at the liability weight, and the account is liquidatable. *)
Theorem C99_healthy_refuted : exists e a oata alt ata b p vault price net o c L L' P hf y hf' y',
  force_withdraw e a oata alt ata true b p vault price net = Some o /\ e_signers e = [99] /\ au_owner a = 1 /\ bank_holds b p /\ fixed_weights c HMaint /\ wc_maint_aw c = 0 /\ wc_init_aw c = 0 /\
  NoDup (pos_ids L) /\ Forall position_ok L /\ positions_with c b p L = Some L /\ positions_with c (fw_bank o) (fw_pos o) L = Some L' /\
  build_cache false (map complete L) [] P = Some hf /\ health hf HMaint = Some y /\
  build_cache false (map complete L') [] P = Some hf' /\ health hf' HMaint = Some y' /\ of_int 11 < y /\ y' < of_int (-40).
Proof.
  exists (mkTenv 100 [99] 50), ex_auth, (mkTok 900 66), (mkTok 901 1), (fun o => 899 + o), fw_bank0, (ex_tpos 60), 500, (2 * fone), 100. eexists. exists (fw_cfg 0), (firstn 1 (fw_L 0) ++ [mkPosIn true true true (tok_w 1 100 120 12)]).
  eexists. exists [perp_w 0 100 100 0 (-50) 0 0]. do 4 eexists. split; [vm_compute; reflexivity|]. split; [reflexivity|]. split; [reflexivity|]. split; [holds|]. split; [left; discriminate|]. split; [reflexivity|]. split; [reflexivity|].
  split; [vm_compute; repeat constructor; cbn; intuition discriminate|]. split; [unfold fw_L; cbn [firstn app]; posok fw_cfg|].
  do 6 (split; [vm_compute; reflexivity|]). split; zc.
Qed.
Print Assumptions C99_healthy_refuted.
(** 60 tokens (less a rounding) at price 2 are paid to the alternate account of the owner, as the associated account is not his; with
    weight 0 health stays -24; with less in the vault it fails *)
Example C99_example : exists o L' hf y hf' y', fw_run 59 = Some o /\ fw_target o = mkTok 901 1 /\ fw_paid o = 59 /\ fw_net o = -18 /\ fw_active o = false /\
  positions_with (fw_cfg 0) fw_bank0 (ex_tpos 60) (fw_L 0) = Some (fw_L 0) /\ positions_with (fw_cfg 0) (fw_bank o) (fw_pos o) (fw_L 0) = Some L' /\
  build_cache false (map complete (fw_L 0)) [] [] = Some hf /\ health hf HMaint = Some y /\ build_cache false (map complete L') [] [] = Some hf' /\ health hf' HMaint = Some y' /\
  to_int y = -24 /\ to_int y' = -24 /\ fw_run 58 = None.
Proof. do 6 eexists. do 13 (split; [vm_compute; reflexivity|]). vm_compute; reflexivity. Qed.
