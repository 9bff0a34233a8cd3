(** C98: what a passing health check means. *)
From Coq Require Import List ZArith Lia Bool Arith.
From Verif Require Import PerpTypes Bank Health HealthSpec HealthFacts HealthDiv HealthOrders HealthMore HealthSkip PropHealth HealthCheck Fixed.
Import ListNotations.
Open Scope Z_scope.

Lemma skipped_covers L O P hs hf : Forall position_ok L -> Forall free_ok O -> NoDup (map (fun p => ti_index (pin_info p)) L) ->
  build_cache true L O P = Some hs -> build_cache false (map complete L) O P = Some hf ->
  covers (map pi_settle P) (hc_tokens hs) (hc_tokens hf) /\ hc_perps hs = P /\ hc_perps hf = P /\ Forall token_ok (hc_tokens hf).
Proof.
  intros HL HF N Bs Bf. unfold build_cache in Bs, Bf. rewrite build_tokens_full in Bf.
  destruct (build_tokens true L) as [T|] eqn:ET; [|discriminate]. destruct (build_serum true O T) as [[T1 R1]|] eqn:E1; [|discriminate].
  destruct (build_serum false O (map pin_info L)) as [[T2 R2]|] eqn:E2; [|discriminate]. cbn [andb] in Bs, Bf. apply some_inj in Bf; subst hf.
  destruct (forallb _ P) eqn:EP; [|discriminate]. cbn [negb] in Bs. apply some_inj in Bs; subst hs. rewrite forallb_forall in EP. cbn [hc_tokens hc_perps].
  assert (NF : NoDup (map ti_index (map pin_info L))) by (rewrite map_map; exact N).
  assert (ST : T = map pin_info (filter keep L)).
  { apply (build_tokens_skip [] L T ET HL). intros p _ _ []. }
  assert (C : covers (map pi_settle P) T (map pin_info L)).
  { apply (build_tokens_skip _ L T ET HL). intros p Hp Kp Hs. apply in_map_iff in Hs as (pi & Es & Hpi). specialize (EP _ Hpi).
    destruct (token_pos T1 (pi_settle pi)) eqn:EQ; [|discriminate]. assert (In (pi_settle pi) (map ti_index T1)) as Hin by (apply token_pos_in; congruence).
    rewrite (build_serum_idx _ _ _ _ _ E1), ST, Es in Hin. rewrite map_map in Hin. apply in_map_iff in Hin as (p' & Ep' & Hp'). apply filter_In in Hp' as [Hp1 Hp2].
    assert (p' = p); [|congruence]. clear -N Hp Hp1 Ep'. induction L as [|a L IH]; [destruct Hp|]. cbn [map] in N. inversion N as [|? ? N1 N2]; subst.
    destruct Hp as [<-|Hp], Hp1 as [<-|Hp1]; [reflexivity| | |apply IH; assumption]; exfalso; apply N1; apply in_map_iff; eauto. }
  split; [eapply build_serum_covers; eassumption|]. split; [reflexivity|]. split; [reflexivity|].
  eapply build_serum_ok; [exact E2|]. clear -HL. induction HL as [|p L [H _] _ IH]; constructor; assumption.
Qed.

(** ** the split of one token, with its spot balance changed *)
Definition tal (P : list pinfo) (ty : htype) (t : tinfo) : fx * fx :=
  let '(a, l) := fold_left (fun al pi => if pi_settle pi =? ti_index t then split_add al (hupnl pi ty) else al) P (split_add (0, 0) (ti_spot t)) in
  (if l <=? a then fmul l (liab_wp t ty) + fmul (a - l) (asset_wp t ty) else fmul a (liab_wp t ty), fmul l (liab_wp t ty)).
Lemma tal_step hc ty tot t : token_assets_liabs hc ty false tot t = (fst tot + fst (tal (hc_perps hc) ty t), snd tot + snd (tal (hc_perps hc) ty t)).
Proof. unfold token_assets_liabs, tal, token_split. destruct (fold_left _ _ _) as [a l]. reflexivity. Qed.
Lemma tal_fold hc ty T : forall tot, fold_left (token_assets_liabs hc ty false) T tot =
  (fst tot + sum (map (fun t => fst (tal (hc_perps hc) ty t)) T), snd tot + sum (map (fun t => snd (tal (hc_perps hc) ty t)) T)).
Proof.
  induction T as [|t T IH]; intros [x y]; cbn [fold_left map]; [change (sum []) with 0; rewrite !Z.add_0_r; reflexivity|].
  rewrite IH, tal_step, !sum_cons. cbn [fst snd]. f_equal; lia.
Qed.
Definition below (x y : fx * fx) : Prop := 0 <= fst x <= fst y /\ 0 <= snd y <= snd x.
Lemma split_below x y v : below x y -> below (split_add x v) (split_add y v).
Proof. unfold below, split_add. intros [A B]. destruct (Z.ltb_spec 0 v); cbn [fst snd]; lia. Qed.
Lemma fold_below i P ty : forall x y, below x y ->
  below (fold_left (fun al pi => if pi_settle pi =? i then split_add al (hupnl pi ty) else al) P x) (fold_left (fun al pi => if pi_settle pi =? i then split_add al (hupnl pi ty) else al) P y).
Proof. induction P as [|p P IH]; intros x y B; cbn [fold_left]; [exact B|]. destruct (_ =? i); apply IH; [apply split_below|]; exact B. Qed.
Lemma tal_mono P ty t x y : token_ok t -> x <= y ->
  let u := tal P ty (add_spot t x) in let v := tal P ty (add_spot t y) in snd v <= snd u /\ 0 <= snd v /\ fst u - snd u <= fst v - snd v.
Proof.
  intros T XY. unfold tal. cbv zeta.
  assert (WL : forall z, liab_wp (add_spot t z) ty = liab_wp t ty) by (intros z; destruct ty; reflexivity).
  assert (WA : forall z, asset_wp (add_spot t z) ty = asset_wp t ty) by (intros z; destruct ty; reflexivity).
  rewrite (WL x), (WL y), (WA x), (WA y). clear WL WA.
  change (ti_index (add_spot t x)) with (ti_index t). change (ti_index (add_spot t y)) with (ti_index t). change (ti_spot (add_spot t x)) with (ti_spot t + x). change (ti_spot (add_spot t y)) with (ti_spot t + y).
  assert (B : below (split_add (0, 0) (ti_spot t + x)) (split_add (0, 0) (ti_spot t + y))).
  { unfold below, split_add. destruct (Z.ltb_spec 0 (ti_spot t + x)), (Z.ltb_spec 0 (ti_spot t + y)); cbn [fst snd]; lia. }
  apply (fold_below (ti_index t) P ty) in B. destruct (fold_left _ P (split_add (0, 0) (ti_spot t + x))) as [a l]. destruct (fold_left _ P (split_add (0, 0) (ti_spot t + y))) as [a' l'].
  unfold below in B. cbn [fst snd] in *. destruct B as [A L].
  clear XY.
  pose proof (asset_wp_le t ty ty (stricter_refl ty) T) as AW. pose proof (liab_wp_le t ty ty (stricter_refl ty) T) as LW. set (aw := asset_wp t ty) in *. set (lw := liab_wp t ty) in *. clearbody aw lw.
  split; [apply fmul_mono_l; lia|]. split; [apply fmul_nonneg; lia|].
  pose proof (fmul_mono_l l' l lw ltac:(lia) ltac:(lia)). pose proof (fmul_mono_l a a' lw ltac:(lia) ltac:(lia)).
  destruct (Z.leb_spec l a), (Z.leb_spec l' a').
  - pose proof (fmul_mono_l (a - l) (a' - l') aw ltac:(lia) ltac:(lia)). lia.
  - lia.
  - pose proof (fmul_nonneg (a' - l') aw ltac:(lia) ltac:(lia)). pose proof (fmul_mono_l a l lw ltac:(lia) ltac:(lia)). lia.
  - lia.
Qed.
Lemma tal_alone P ty t : token_ok t -> 0 <= ti_spot t -> ~ In (ti_index t) (map pi_settle P) -> snd (tal P ty t) = 0 /\ 0 <= fst (tal P ty t).
Proof.
  intros T S N. unfold tal.
  assert (E : forall x, fold_left (fun al pi => if pi_settle pi =? ti_index t then split_add al (hupnl pi ty) else al) P x = x).
  { clear -N. induction P as [|p P IH]; intros x; cbn [fold_left]; [reflexivity|]. cbn [map In] in N. destruct (Z.eqb_spec (pi_settle p) (ti_index t)); [tauto|]. apply IH. tauto. }
  rewrite E. pose proof (asset_wp_le t ty ty (stricter_refl ty) T) as AW. unfold split_add. destruct (Z.ltb_spec 0 (ti_spot t)); cbn [fst snd].
  - destruct (Z.leb_spec 0 (0 + ti_spot t)); [|lia]. cbn [fst snd]. rewrite !fmul_0_l. split; [reflexivity|]. pose proof (fmul_nonneg (0 + ti_spot t - 0) (asset_wp t ty) ltac:(lia) ltac:(lia)). lia.
  - assert (Z0 : ti_spot t = 0) by lia. rewrite Z0. cbn [Z.sub Z.opp Z.add Z.leb Z.compare fst snd]. rewrite !fmul_0_l. split; [reflexivity|]. lia.
Qed.
Lemma covers_tal P ty A B : covers (map pi_settle P) A B -> Forall token_ok B ->
  let la := sum (map (fun t => snd (tal P ty t)) A) in let lb := sum (map (fun t => snd (tal P ty t)) B) in
  0 <= lb <= la /\ sum (map (fun t => fst (tal P ty t)) A) - la <= sum (map (fun t => fst (tal P ty t)) B) - lb.
Proof.
  cbv zeta. induction 1 as [|t x y A B Hxy C IH|t A B Ht Hn C IH]; intros F; [cbn [map]; change (sum []) with 0; lia| |]; inversion F as [|? ? Ft FB]; subst; cbn [map]; rewrite !sum_cons; specialize (IH FB).
  - assert (T : token_ok t) by exact Ft. pose proof (tal_mono P ty t x y T Hxy) as M. cbv zeta in M. lia.
  - pose proof (tal_alone P ty t Ft Ht Hn). lia.
Qed.
Lemma split_zeros C : Forall (fun c => c = 0) C -> forall al, fold_left split_add C al = al.
Proof. induction 1 as [|c C -> _ IH]; intros [a l]; cbn [fold_left]; [reflexivity|]. rewrite IH. unfold split_add. cbn [Z.ltb Z.compare fst snd]. rewrite Z.sub_0_r. reflexivity. Qed.
Lemma no_reserved_zeros hc ty B C : no_reserved hc -> serum_contributions hc ty B = Some C -> Forall (fun c => c = 0) C.
Proof.
  intros N. unfold serum_contributions. destruct (reservations _ _ _ _) as [[M R]|] eqn:E; [|discriminate]. intros H. apply some_inj in H; subst C.
  apply no_reserved_zero in E; [|exact N]. induction E as [|[s r] L H _ IH]; cbn [map]; constructor; [|exact IH]. cbn [snd] in H. subst r. reflexivity.
Qed.
Lemma al_plain hc ty A L : no_reserved hc -> assets_and_liabs hc ty false = Some (A, L) ->
  A = sum (map (fun t => fst (tal (hc_perps hc) ty t)) (hc_tokens hc)) /\ L = sum (map (fun t => snd (tal (hc_perps hc) ty t)) (hc_tokens hc)).
Proof.
  intros N H. unfold assets_and_liabs in H. destruct (balances hc ty false) as [B|]; [|discriminate]. destruct (serum_contributions hc ty B) as [C|] eqn:E; [|discriminate].
  rewrite (split_zeros C (no_reserved_zeros _ _ _ _ N E)), tal_fold in H. apply some_inj, pair_equal_spec in H as [<- <-]. cbn [fst snd]. lia.
Qed.
Lemma build_no_reserved skip L O P hc : Forall all_free O -> build_cache skip L O P = Some hc -> no_reserved hc.
Proof.
  intros F H. unfold build_cache in H. destruct (build_tokens skip L) as [T|]; [|discriminate]. destruct (build_serum skip O T) as [[T' R]|] eqn:E; [|discriminate].
  destruct (_ && _); [discriminate|]. apply some_inj in H. subst hc. exact (build_serum_free _ _ F _ _ _ E).
Qed.

(** ** the claims *)
Lemma check_inv L O P k min : health_check L O P k min = Some tt -> exists hs v, build_cache true L O P = Some hs /\ check_value hs k = Some v /\ min <= v.
Proof.
  unfold health_check. destruct (build_cache true L O P) as [hs|]; [|discriminate]. destruct (check_value hs k) as [v|] eqn:V; [|discriminate]. destruct (Z.leb_spec min v); [|discriminate]. eauto 6.
Qed.
(** Whatever banks and oracles the caller leaves out: if the check passes, the health computed from all of them is at least the
    minimum, for every kind of health. *)
Theorem C98_value : forall L O P ty min hf h, health_check L O P (KHealth ty) min = Some tt ->
  Forall position_ok L -> Forall free_ok O -> Forall all_free O -> NoDup (map (fun p => ti_index (pin_info p)) L) ->
  build_cache false (map complete L) O P = Some hf -> health hf ty = Some h -> min <= h.
Proof.
  intros L O P ty min hf h H HL HF HA N Bf Hh. apply check_inv in H as (hs & v & Bs & V & M). cbn [check_value] in V. pose proof (skipped_health L O P hs hf ty v h HL HF HA N Bs Bf V Hh). lia.
Qed.
Print Assumptions C98_value.

Lemma fx_bounds : fx_min <= 0 <= fx_max. Proof. vm_compute. split; discriminate. Qed.
Lemma sat_upto a b : fx_min <= sat_div a b <= fx_max.
Proof. unfold sat_div. pose proof fx_bounds. lia. Qed.
Lemma div_step n n' d d' : 0 <= n -> n <= n' -> 0 < d' <= d -> fdiv n d <= fdiv n' d'.
Proof.
  intros N M D. transitivity (fdiv n' d); [apply fdiv_mono; lia|].
  pose proof (fdiv_pos_bounds n' d ltac:(lia) ltac:(lia)) as A. pose proof (fdiv_pos_bounds n' d' ltac:(lia) ltac:(lia)) as B. pose proof (fdiv_nonneg n' d ltac:(lia) ltac:(lia)) as Q.
  clear - A B D Q. nia.
Qed.
(** The same for the health ratios, if the minimum is positive. *)
Theorem C98_ratio : forall L O P ty min hf r, health_check L O P (KRatio ty) min = Some tt -> 0 < min ->
  Forall position_ok L -> Forall free_ok O -> Forall all_free O -> NoDup (map (fun p => ti_index (pin_info p)) L) ->
  build_cache false (map complete L) O P = Some hf -> health_ratio hf ty = Some r -> min <= r.
Proof.
  intros L O P ty min hf r H M0 HL HF HA N Bf Hr. apply check_inv in H as (hs & v & Bs & V & M). cbn [check_value] in V.
  destruct (skipped_covers L O P hs hf HL HF N Bs Bf) as (C & Ps & Pf & TO). unfold health_ratio in V, Hr.
  destruct (assets_and_liabs hs ty false) as [[A1 L1]|] eqn:E1; [|discriminate]. destruct (assets_and_liabs hf ty false) as [[A2 L2]|] eqn:E2; [|discriminate].
  apply some_inj in V, Hr. apply al_plain in E1 as [EA1 EL1]; [|exact (build_no_reserved _ _ _ _ _ HA Bs)]. apply al_plain in E2 as [EA2 EL2]; [|exact (build_no_reserved _ _ _ _ _ HA Bf)].
  rewrite Ps in EA1, EL1. rewrite Pf in EA2, EL2. pose proof (covers_tal P ty _ _ C TO) as K. cbv zeta in K. rewrite <- EA1, <- EL1, <- EA2, <- EL2 in K. clear EA1 EL1 EA2 EL2 C TO Bs Bf HL HF HA N.
  assert (MM : min <= fx_max) by (subst v; destruct (0 <? L1); [pose proof (sat_upto (fmul (of_int 100) (A1 - L1)) L1)|]; lia).
  pose proof fx_bounds as FB.
  destruct (Z.ltb_spec 0 L2); [|lia]. destruct (Z.ltb_spec 0 L1); [|lia]. subst v r. unfold sat_div in *. rewrite !fmul_int_l in *.
  assert (M1 : min <= fdiv (100 * (A1 - L1)) L1) by (clear - M M0 FB; lia).
  assert (P1 : 0 <= A1 - L1).
  { destruct (Z.leb_spec 0 (A1 - L1)) as [|Q]; [assumption|exfalso]. replace (100 * (A1 - L1)) with (- (100 * (L1 - A1))) in M1 by lia. rewrite fdiv_opp_l in M1.
    pose proof (fdiv_nonneg (100 * (L1 - A1)) L1 ltac:(lia) ltac:(lia)). lia. }
  pose proof (div_step (100 * (A1 - L1)) (100 * (A2 - L2)) L1 L2 ltac:(lia) ltac:(lia) ltac:(lia)) as D. clear - D M1 MM. lia.
Qed.
Print Assumptions C98_ratio.

(** A passing ratio check with a positive minimum also bounds the health: no liabilities, or health positive by that ratio of the
    liabilities. *)
Theorem C98_meaning : forall hc ty m r A L, health_ratio hc ty = Some r -> of_int m <= r -> 0 < m -> assets_and_liabs hc ty false = Some (A, L) -> 0 < L ->
  m * L <= 100 * (A - L).
Proof.
  intros hc ty m r A L H M M0 E L0. unfold health_ratio in H. rewrite E in H. apply some_inj in H. destruct (Z.ltb_spec 0 L); [|lia]. unfold sat_div in H. rewrite fmul_int_l in H.
  assert (O0 : 0 < of_int m) by (unfold of_int; pose proof fone_pos; nia).
  assert (M1 : of_int m <= fdiv (100 * (A - L)) L) by (pose proof fx_bounds as FB; subst r; clear - M O0 FB; lia).
  assert (P1 : 0 <= A - L).
  { destruct (Z.leb_spec 0 (A - L)) as [|Q]; [assumption|exfalso]. replace (100 * (A - L)) with (- (100 * (L - A))) in M1 by lia. rewrite fdiv_opp_l in M1.
    pose proof (fdiv_nonneg (100 * (L - A)) L ltac:(lia) ltac:(lia)). lia. }
  pose proof (fdiv_pos_bounds (100 * (A - L)) L ltac:(lia) L0) as B. pose proof fone_pos as FP. unfold of_int in M1. clear - B M1 FP L0. nia.
Qed.
Print Assumptions C98_meaning.

(** Only positions that are not negative can be left out, and not the settle token of a perp position. *)
Theorem C98_left_out : forall L O P k min, health_check L O P k min = Some tt -> Forall position_ok L -> NoDup (map (fun p => ti_index (pin_info p)) L) ->
  forall p, In p L -> pin_available p && pin_oracle_ok p = false -> 0 <= ti_spot (pin_info p) /\ ~ In (ti_index (pin_info p)) (map pi_settle P).
Proof.
  intros L O P k min H HL N p Ip K. apply check_inv in H as (hs & _ & Bs & _). unfold build_cache in Bs. destruct (build_tokens true L) as [T|] eqn:ET; [|discriminate].
  destruct (build_serum true O T) as [[T1 R1]|] eqn:E1; [|discriminate]. destruct (forallb _ P) eqn:EP; [|discriminate]. rewrite forallb_forall in EP.
  assert (ST : T = map pin_info (filter keep L)) by (apply (build_tokens_skip [] L T ET HL); intros q _ _ []). split.
  - clear - ET HL Ip K. revert T ET. induction HL as [|q L Hq HL IH]; intros T ET; [destruct Ip|]. cbn [build_tokens] in ET. destruct Ip as [<-|Ip].
    + apply Hq. destruct (pin_available q); cbn [negb andb] in *; [rewrite K in ET; cbn [negb andb] in ET|]; destruct (pin_nonneg q); [reflexivity|discriminate|reflexivity|discriminate].
    + destruct (build_tokens true L) as [T'|]; [exact (IH Ip T' eq_refl)|]. destruct (pin_available q), (pin_oracle_ok q), (pin_nonneg q); cbn in ET; discriminate.
  - intros Hs. apply in_map_iff in Hs as (pi & Es & Hpi). specialize (EP _ Hpi).
    destruct (token_pos T1 (pi_settle pi)) eqn:EQ; [|discriminate]. assert (In (pi_settle pi) (map ti_index T1)) as Hin by (apply token_pos_in; congruence).
    rewrite (build_serum_idx _ _ _ _ _ E1), ST, Es in Hin. rewrite map_map in Hin. apply in_map_iff in Hin as (p' & Ep' & Hp'). apply filter_In in Hp' as [Hp1 Hp2].
    assert (p' = p); [|subst p'; unfold keep in Hp2; congruence]. clear -N Ip Hp1 Ep'. induction L as [|a L IH]; [destruct Ip|]. cbn [map] in N. inversion N as [|? ? N1 N2]; subst.
    destruct Ip as [<-|Ip], Hp1 as [<-|Hp1]; [reflexivity| | |apply IH; assumption]; exfalso; apply N1; apply in_map_iff; eauto.
Qed.
Print Assumptions C98_left_out.

(** With open spot orders a check can pass although the health with all banks is below the minimum: the market of the left-out bank
    shares a token with another. *)
Theorem C98_orders_refuted : exists L O min hf h,
  Forall position_ok L /\ Forall free_ok O /\ NoDup (map (fun p => ti_index (pin_info p)) L) /\
  health_check L O [] (KHealth HInit) min = Some tt /\ build_cache false (map complete L) O [] = Some hf /\ health hf HInit = Some h /\ h + of_int 7 < min.
Proof.
  destruct C58_with_orders_refuted as (L & O & hs & hf & x & y & HL & HF & N & Bs & Bf & Hx & Hy & D). exists L, O, x, hf, y.
  split; [exact HL|]. split; [exact HF|]. split; [exact N|]. split; [|split; [exact Bf|split; [exact Hy|exact D]]].
  unfold health_check. rewrite Bs. cbn [check_value]. rewrite Hx, Z.leb_refl. reflexivity.
Qed.
Print Assumptions C98_orders_refuted.

(** With a negative minimum the ratio can be lower with all banks: repaying part of a liability that positive pnl covers lowers both
    assets and liabilities, and a negative ratio falls with the liabilities. *)
Definition neg_pos : list pos_in :=
  [mkPosIn true true false (tok_w 0 20 120 (-100)); mkPosIn true true false (tok_w 1 80 120 (-100)); mkPosIn false true true (tok_w 2 80 120 0)].
Definition neg_markets : list serum_in := [mkSerumIn 2 0 (mkOO 0 0 50 50 0) 0 0 0].
Definition neg_perps : list pinfo := [perp_w 0 100 100 0 150 0 0].
Theorem C98_negative_refuted : exists L O P min hf r,
  Forall position_ok L /\ Forall free_ok O /\ Forall all_free O /\ NoDup (map (fun p => ti_index (pin_info p)) L) /\
  health_check L O P (KRatio HInit) min = Some tt /\ build_cache false (map complete L) O P = Some hf /\ health_ratio hf HInit = Some r /\ r + of_int 9 < min /\ min < 0.
Proof.
  exists neg_pos, neg_markets, neg_perps, (of_int (-46)). eexists. eexists.
  split; [repeat (apply Forall_cons || apply Forall_nil); (split; [unfold token_ok, prices_ok; cbn [pin_info]; zr|cbn [pin_nonneg]; intros E; try discriminate; zle])|].
  split; [repeat (apply Forall_cons || apply Forall_nil); split; zle|].
  split; [repeat (apply Forall_cons || apply Forall_nil); split; reflexivity|].
  split; [cbn [neg_pos map pin_info tok_w ti_index]; repeat constructor; cbn; intuition discriminate|].
  split; [vm_compute; reflexivity|]. split; [vm_compute; reflexivity|]. split; [vm_compute; reflexivity|]. split; zle.
Qed.
Print Assumptions C98_negative_refuted.

(** ** examples *)
Definition hc_pos : list pos_in :=
  [mkPosIn false true true (tok_w 0 80 120 20); mkPosIn true true false (tok_w 1 80 120 (-10)); mkPosIn true true true (tok_w 2 100 120 50); mkPosIn true false true (tok_w 3 100 120 50)].
Definition hc_markets : list serum_in := [mkSerumIn 0 2 (mkOO 7 7 5 5 0) 0 0 0; mkSerumIn 1 2 (mkOO 3 3 2 2 0) 0 0 0].
Definition hc_perps_ex : list pinfo := [perp_w 2 80 90 10 (-5) 3 4].
Lemma hc_ok : Forall position_ok hc_pos /\ Forall free_ok hc_markets /\ Forall all_free hc_markets /\ NoDup (map (fun p => ti_index (pin_info p)) hc_pos).
Proof.
  split; [repeat (apply Forall_cons || apply Forall_nil); (split; [unfold token_ok, prices_ok; cbn [pin_info]; zr|cbn [pin_nonneg]; intros E; try discriminate; zle])|].
  split; [repeat (apply Forall_cons || apply Forall_nil); split; zle|].
  split; [repeat (apply Forall_cons || apply Forall_nil); split; reflexivity|].
  cbn [hc_pos map pin_info tok_w ti_index]; repeat constructor; cbn; intuition discriminate.
Qed.
(** bank 0 is missing, oracle 3 unusable: initial health 45 and ratio 547 instead of 122 and 1459; checks for 45 and 547 pass, for 46 not *)
Example C98_example : exists hf h r, build_cache false (map complete hc_pos) hc_markets hc_perps_ex = Some hf /\ health hf HInit = Some h /\ health_ratio hf HInit = Some r /\
  to_int h = 122 /\ to_int r = 1459 /\
  health_check hc_pos hc_markets hc_perps_ex (KHealth HInit) (of_int 45) = Some tt /\ health_check hc_pos hc_markets hc_perps_ex (KHealth HInit) (of_int 46) = None /\
  health_check hc_pos hc_markets hc_perps_ex (KRatio HInit) (of_int 547) = Some tt /\ health_check hc_pos hc_markets hc_perps_ex (KRatio HInit) (of_int 548) = None.
Proof. do 3 eexists. do 8 (split; [vm_compute; reflexivity|]). vm_compute; reflexivity. Qed.
(** the bank of a borrow, or of the settle token of a perp position, cannot be left out *)
Example C98_refused :
  health_check [mkPosIn false true false (tok_w 1 80 120 (-10)); mkPosIn true true true (tok_w 2 100 120 50)] [] [] (KHealth HInit) (of_int (-1000)) = None /\
  health_check [mkPosIn false true true (tok_w 1 80 120 10); mkPosIn true true true (tok_w 2 100 120 50)] [] [perp_w 1 80 90 10 (-5) 0 0] (KHealth HInit) (of_int (-1000)) = None.
Proof. split; vm_compute; reflexivity. Qed.
