(** Facts about whole withdraw and deposit instructions. *)
From Coq Require Import List ZArith Lia Bool.
From Verif Require Import Interest InterestFacts Bank BankSpec BankFacts BankResults Health HealthSpec HealthDiv HealthFacts HealthMore HealthSkip LiqState TokenLiq TokenLiqFacts SerumCache
  Scaling ScalingFacts PropScaling TokenMove Fixed.
Import ListNotations.
Open Scope Z_scope.

(** sane settings: weights in order, scaling starts not negative *)
Record wcfg_ok (c : wcfg) : Prop := {
  wo_aw : 0 <= wc_init_aw c <= wc_maint_aw c;
  wo_lw : 0 <= wc_maint_lw c <= wc_init_lw c;
  wo_big : wc_init_lw c < 2 ^ 127;
  wo_dep : forall st, wc_dep_start c = Some st -> 0 <= st;
  wo_bor : forall st, wc_bor_start c = Some st -> 0 <= st }.
(** a bank that holds the position [p] *)
Definition bank_holds (b : bank) (p : tpos) : Prop :=
  0 < b_di b /\ 0 < b_bi b /\ 0 <= b_lof b /\ 0 <= b_serum b /\ Z.max (t_ix p) 0 <= b_dep b /\ Z.max (- t_ix p) 0 <= b_bor b.

Lemma scaled_aw_range c b price w : wcfg_ok c -> 0 <= native_deposits b -> 0 <= b_serum b -> 0 <= price -> scaled_init_asset_weight c b price = Some w -> 0 <= w <= wc_init_aw c.
Proof.
  intros W N S P H. destruct (wc_dep_start c) as [st|] eqn:E.
  - eapply C84_asset_weight; [exact E|apply (wo_dep _ W), E|apply W|exact N|exact S|exact P|exact H].
  - rewrite (proj1 (C84_unscaled c b price) E) in H. apply some_inj in H. pose proof (wo_aw _ W). lia.
Qed.
Lemma scaled_lw_range c b price w : wcfg_ok c -> 0 <= native_borrows b -> 0 <= price -> scaled_init_liab_weight c b price = Some w -> wc_init_lw c <= w.
Proof.
  intros W N P H. destruct (wc_bor_start c) as [st|] eqn:E.
  - pose proof (wo_bor _ W st E) as S. destruct (Z.eq_dec st 0) as [->|NZ].
    + unfold scaled_init_liab_weight in H. rewrite E in H. destruct (_ <=? _); [apply some_inj in H; lia|]. change (0 =? 0) with true in H. cbn iota in H. apply some_inj in H. subst w. pose proof (wo_big _ W). unfold fx_max. lia.
    + assert (S' : 0 < st) by lia. pose proof (wo_lw _ W) as LW. eapply (C84_liab_weight c b price st w E S' ltac:(lia) N P H).
  - rewrite (proj2 (C84_unscaled c b price) E) in H. apply some_inj in H. lia.
Qed.
Lemma token_info_ok c b pr n t : wcfg_ok c -> 0 <= native_deposits b -> 0 <= native_borrows b -> 0 <= b_serum b -> prices_ok pr -> token_info c b pr n = Some t -> token_ok t.
Proof.
  intros W D B S [P1 P2] H. unfold token_info in H. destruct (scaled_init_asset_weight _ _ _) as [aw|] eqn:A; [|discriminate].
  destruct (scaled_init_liab_weight _ _ _) as [lw|] eqn:L; [|discriminate]. apply some_inj in H. subst t.
  assert (P : 0 <= liab_price pr HInit) by (cbn [liab_price]; lia).
  pose proof (scaled_aw_range _ _ _ _ W D S P A). pose proof (scaled_lw_range _ _ _ _ W B P L). pose proof (wo_aw _ W). pose proof (wo_lw _ W).
  unfold token_ok. cbn [ti_scaled_aw ti_init_aw ti_maint_aw ti_maint_lw ti_init_lw ti_scaled_lw ti_prices]. split; [lia|]. split; [lia|]. split; [lia|]. split; [lia|]. split; assumption.
Qed.
Lemma holds_nonneg b p : bank_holds b p -> 0 <= native_deposits b /\ 0 <= native_borrows b.
Proof. intros (D & B & _ & _ & A1 & A2). unfold native_deposits, native_borrows. split; apply fmul_nonneg; lia. Qed.
Lemma moved_holds b b' p p' : bank_holds b p -> moved b b' p p' -> bank_holds b' p'.
Proof. intros (D & B & L & S & A1 & A2) M. unfold bank_holds. rewrite (mv_di _ _ _ _ M), (mv_bi _ _ _ _ M), (mv_lof _ _ _ _ M), (mv_serum _ _ _ _ M). pose proof (mv_dep _ _ _ _ M). pose proof (mv_bor _ _ _ _ M). do 4 (split; [assumption|]). lia. Qed.
Lemma native_le b b' p p' : index_ok b -> b_di b' = b_di b -> b_bi b' = b_bi b -> t_ix p' <= t_ix p -> native b' p' <= native b p.
Proof.
  intros [D B] E1 E2 H. unfold native. rewrite E1, E2. unfold fmul. pose proof fone_pos. destruct (Z.ltb_spec 0 (t_ix p')), (Z.ltb_spec 0 (t_ix p)); try lia; apply Z.div_le_mono; nia.
Qed.

(** ** the account's positions *)
Lemma pw_map c b p L L' : positions_with c b p L = Some L' ->
  map (fun q => ti_index (pin_info q)) L' = map (fun q => ti_index (pin_info q)) L.
Proof.
  revert L'. induction L as [|q L IH]; intros L' H; cbn [positions_with] in H; [apply some_inj in H; subst; reflexivity|].
  destruct (positions_with c b p L) as [R|]; [|discriminate]. destruct (Z.eqb_spec (ti_index (pin_info q)) (wc_index c)) as [E|E].
  - unfold token_info in H. destruct (scaled_init_asset_weight _ _ _); [|discriminate]. destruct (scaled_init_liab_weight _ _ _); [|discriminate]. apply some_inj in H. subst L'. cbn [map pin_info ti_index]. rewrite (IH _ eq_refl), E. reflexivity.
  - apply some_inj in H. subst L'. cbn [map]. rewrite (IH _ eq_refl). reflexivity.
Qed.
Lemma pw_bump c b p b' p' L L' w : NoDup (map (fun q => ti_index (pin_info q)) L) -> positions_with c b p L = Some L -> positions_with c b' p' L = Some L' ->
  (forall q, In q L -> ti_index (pin_info q) = wc_index c -> scaled_init_asset_weight c b' (liab_price (ti_prices (pin_info q)) HInit) = Some (fst w) /\
     scaled_init_liab_weight c b' (liab_price (ti_prices (pin_info q)) HInit) = Some (snd w)) ->
  L' = map (pos_bump (wc_index c) (native b' p' - native b p) w (0 <=? t_ix p')) L.
Proof.
  revert L'. induction L as [|q L IH]; intros L' ND S H W; cbn [positions_with] in S, H; [apply some_inj in H; subst; reflexivity|].
  destruct (positions_with c b p L) as [R|] eqn:E1; [|discriminate]. destruct (positions_with c b' p' L) as [R'|] eqn:E2; [|discriminate].
  cbn [map] in *. inversion ND as [|? ? NI ND']; subst.
  assert (ER : R = L). { destruct (ti_index (pin_info q) =? wc_index c); [destruct (token_info c b _ _); [|discriminate]|]; apply some_inj in S; injection S; auto. }
  subst R. rewrite <- (IH R' ND' eq_refl eq_refl) by (intros; apply W; [right|]; assumption). unfold pos_bump. destruct (Z.eqb_spec (ti_index (pin_info q)) (wc_index c)) as [E|E].
  - destruct (W q (or_introl eq_refl) E) as [W1 W2]. unfold token_info in S, H. rewrite W1, W2 in H. apply some_inj in H. subst L'. f_equal.
    destruct (scaled_init_asset_weight c b _) as [aw|]; [|discriminate]. destruct (scaled_init_liab_weight c b _) as [lw|]; [|discriminate]. apply some_inj in S.
    apply (f_equal (fun l => match l with x :: _ => pin_info x | [] => pin_info q end)) in S. cbv beta iota in S. cbn [pin_info] in S.
    f_equal. unfold bump, set_spot. set (pr := ti_prices (pin_info q)) in *. rewrite <- S.
    cbn [ti_index ti_maint_aw ti_init_aw ti_maint_lw ti_init_lw ti_prices ti_spot ti_liq_ok]. f_equal. lia.
  - apply some_inj in H. subst L'. reflexivity.
Qed.
Lemma pw_ok c b p L L' : wcfg_ok c -> bank_holds b p -> Forall position_ok L -> positions_with c b p L = Some L' -> Forall position_ok L'.
Proof.
  intros W H F. destruct (holds_nonneg _ _ H) as [D B]. revert L'. induction F as [|q L [T N] F IH]; intros L' E; cbn [positions_with] in E; [apply some_inj in E; subst; constructor|].
  destruct (positions_with c b p L) as [R|]; [|discriminate]. specialize (IH R eq_refl). destruct (ti_index (pin_info q) =? wc_index c).
  - destruct (token_info c b _ _) as [t|] eqn:TI; [|discriminate]. apply some_inj in E. subst L'. constructor; [|exact IH]. split; cbn [pin_info pin_nonneg].
    + destruct H as (_ & _ & _ & S & _). refine (token_info_ok c b _ _ t W D B S _ TI). apply T.
    + intros Q. apply Z.leb_le in Q. unfold token_info in TI. destruct (scaled_init_asset_weight _ _ _); [|discriminate]. destruct (scaled_init_liab_weight _ _ _); [|discriminate]. apply some_inj in TI. subst t. cbn [ti_spot].
      destruct H as (D1 & D2 & _). destruct (Z.le_gt_cases 0 (native b p)) as [|C]; [assumption|]. apply (native_neg b p (conj D1 D2)) in C. lia.
  - apply some_inj in E. subst L'. constructor; [split; assumption|exact IH].
Qed.
Lemma pw_complete c b p L L' : positions_with c b p L = Some L' -> positions_with c b p (map complete L) = Some (map complete L').
Proof.
  revert L'. induction L as [|q L IH]; intros L' H; cbn [positions_with map] in *; [apply some_inj in H; subst; reflexivity|].
  destruct (positions_with c b p L) as [R|]; [|discriminate]. rewrite (IH R eq_refl). cbn [complete pin_info pin_available pin_oracle_ok].
  destruct (ti_index (pin_info q) =? wc_index c).
  - destruct (token_info c b _ _) as [t|]; [|discriminate]. apply some_inj in H. subst L'. reflexivity.
  - apply some_inj in H. subst L'. reflexivity.
Qed.
Lemma complete_bump idx x w nn L : map complete (map (pos_bump idx x w nn) L) = map (pos_bump idx x w nn) (map complete L).
Proof. rewrite !map_map. apply map_ext. intros q. unfold pos_bump, complete. cbn [pin_info]. destruct (_ =? idx); reflexivity. Qed.
(** the token infos of the cache come from positions, with the same prices *)
Lemma add_spot_at_in T i x t : In t (add_spot_at T i x) -> exists u, In u T /\ ti_index u = ti_index t /\ ti_prices u = ti_prices t.
Proof.
  revert i. induction T as [|u T IH]; intros [|i] H; cbn [add_spot_at] in H; [destruct H|destruct H| |].
  - destruct H as [<-|H]; [exists u; split; [left; reflexivity|split; reflexivity]|exists t; split; [right; exact H|split; reflexivity]].
  - destruct H as [<-|H]; [exists u; split; [left; reflexivity|split; reflexivity]|]. destruct (IH _ H) as (v & A & B). exists v. split; [right; exact A|exact B].
Qed.
Lemma build_serum_from skip O : forall T T' R, build_serum skip O T = Some (T', R) -> forall t, In t T' -> exists u, In u T /\ ti_index u = ti_index t /\ ti_prices u = ti_prices t.
Proof.
  induction O as [|o O IH]; intros T T' R H t I; cbn [build_serum] in H.
  - apply some_inj in H. apply pair_equal_spec in H as [-> _]. exists t. auto.
  - destruct (token_pos T (sin_base o)) as [i|]; [destruct (token_pos T (sin_quote o)) as [j|]|].
    + destruct (new_sinfo _ _ _ _ _ _); [|discriminate]. destruct (build_serum skip O _) as [[T1 R1]|] eqn:E; [|discriminate]. apply some_inj in H. apply pair_equal_spec in H as [<- _].
      destruct (IH _ _ _ E t I) as (u & U1 & U2 & U3). apply add_spot_at_in in U1 as (v & V1 & V2 & V3). apply add_spot_at_in in V1 as (x & X1 & X2 & X3). exists x. split; [exact X1|]. split; congruence.
    + destruct skip; [eapply IH; eassumption|discriminate].
    + destruct skip; [eapply IH; eassumption|discriminate].
Qed.
Lemma build_tokens_from skip L : forall T, build_tokens skip L = Some T -> forall t, In t T -> exists q, In q L /\ pin_info q = t.
Proof.
  induction L as [|q L IH]; intros T H t I; cbn [build_tokens] in H; [apply some_inj in H; subst; destruct I|].
  assert (X : forall T0, build_tokens skip L = Some T0 -> In t T0 -> exists q0, In q0 (q :: L) /\ pin_info q0 = t).
  { intros T0 E I0. destruct (IH _ E t I0) as (u & A & B). exists u. split; [right; exact A|exact B]. }
  destruct (skip && negb (pin_available q)); [destruct (pin_nonneg q); [eapply X; eassumption|discriminate]|].
  destruct (skip && negb (pin_oracle_ok q) && pin_nonneg q); [eapply X; eassumption|]. destruct (pin_available q && pin_oracle_ok q); [|discriminate].
  destruct (build_tokens skip L) as [T0|] eqn:E; [|discriminate]. apply some_inj in H. subst T. destruct I as [<-|I]; [exists q; split; [left; reflexivity|reflexivity]|eapply X; [reflexivity|exact I]].
Qed.
Lemma build_cache_from skip L O P hc t : build_cache skip L O P = Some hc -> In t (hc_tokens hc) -> exists q, In q L /\ ti_index (pin_info q) = ti_index t /\ ti_prices (pin_info q) = ti_prices t.
Proof.
  unfold build_cache. destruct (build_tokens skip L) as [T|] eqn:BT; [|discriminate]. destruct (build_serum skip O T) as [[T' R]|] eqn:BS; [|discriminate]. destruct (_ && _); [discriminate|].
  intros H I. apply some_inj in H. subst hc. cbn [hc_tokens] in I. destruct (build_serum_from _ _ _ _ _ BS t I) as (u & U1 & U2 & U3). destruct (build_tokens_from _ _ _ BT u U1) as (q & Q1 & Q2).
  exists q. rewrite Q2. auto.
Qed.
Lemma nth_info_some hc idx i t : nth_info hc idx = Some (i, t) -> token_pos (hc_tokens hc) idx = Some i /\ In t (hc_tokens hc) /\ ti_index t = idx.
Proof.
  unfold nth_info. destruct (token_pos (hc_tokens hc) idx) as [k|] eqn:E; [|discriminate]. destruct (nth_error _ k) as [u|] eqn:N; [|discriminate]. intros H. apply some_inj in H. apply pair_equal_spec in H as [<- <-].
  apply HealthFacts.token_pos_lt in E as X. destruct X as (_ & v & N' & Q). rewrite N' in N. apply some_inj in N. subst v. split; [reflexivity|]. split; [eapply nth_error_In, N'|exact Q].
Qed.
Lemma nth_info_none hc idx : nth_info hc idx = None -> token_pos (hc_tokens hc) idx = None.
Proof.
  unfold nth_info. destruct (token_pos (hc_tokens hc) idx) as [k|] eqn:E; [|reflexivity]. apply HealthFacts.token_pos_lt in E as (_ & v & N & _). rewrite N. discriminate.
Qed.
(** a position that the cache leaves out stays out if it stays nonnegative *)
Lemma unknown_same c b p L L' : 0 <= t_ix p -> positions_with c b p L = Some L' -> forall T, build_tokens true L = Some T -> token_pos T (wc_index c) = None -> build_tokens true L' = Some T.
Proof.
  intros Z0. revert L'. induction L as [|q L IH]; intros L' H T B N; cbn [positions_with] in H; [apply some_inj in H; subst; exact B|].
  destruct (positions_with c b p L) as [R|] eqn:E1; [|discriminate]. cbn [build_tokens andb] in B.
  destruct (Z.eqb_spec (ti_index (pin_info q)) (wc_index c)) as [E|E].
  - destruct (token_info c b _ _) as [t|]; [|discriminate]. apply some_inj in H. subst L'. cbn [build_tokens pin_available pin_oracle_ok pin_nonneg pin_info andb]. destruct (Z.leb_spec 0 (t_ix p)); [|lia].
    destruct (pin_available q) eqn:Av; cbn [negb] in *.
    + destruct (pin_oracle_ok q) eqn:Ok; cbn [negb andb] in *.
      * exfalso. destruct (build_tokens true L) as [T0|]; [|discriminate]. apply some_inj in B. subst T. cbn [token_pos] in N. rewrite E, Z.eqb_refl in N. discriminate.
      * destruct (pin_nonneg q); [|discriminate]. apply (IH _ eq_refl); assumption.
    + destruct (pin_nonneg q); [|discriminate]. apply (IH _ eq_refl); assumption.
  - apply some_inj in H. subst L'. cbn [build_tokens andb]. destruct (negb (pin_available q)); [destruct (pin_nonneg q); [|discriminate]; apply (IH _ eq_refl); assumption|].
    destruct (negb (pin_oracle_ok q) && pin_nonneg q); [apply (IH _ eq_refl); assumption|]. destruct (pin_available q && pin_oracle_ok q); [|discriminate].
    destruct (build_tokens true L) as [T0|] eqn:E0; [|discriminate]. apply some_inj in B. subst T. cbn [token_pos] in N. destruct (Z.eqb_spec (ti_index (pin_info q)) (wc_index c)); [contradiction|].
    rewrite (IH R eq_refl T0 eq_refl); [reflexivity|]. destruct (token_pos T0 (wc_index c)); [discriminate|reflexivity].
Qed.
Lemma unknown_cache c b p L L' O P hc : 0 <= t_ix p -> positions_with c b p L = Some L' -> build_cache true L O P = Some hc -> token_pos (hc_tokens hc) (wc_index c) = None -> build_cache true L' O P = Some hc.
Proof.
  intros Z0 H B N. unfold build_cache in *. destruct (build_tokens true L) as [T|] eqn:BT; [|discriminate]. destruct (build_serum true O T) as [[T' R]|] eqn:BS; [|discriminate].
  destruct (_ && _) eqn:F; [discriminate|]. apply some_inj in B. subst hc. cbn [hc_tokens] in N. rewrite (token_pos_idx _ _ _ (build_serum_idx _ _ _ _ _ BS)) in N.
  rewrite (unknown_same c b p L L' Z0 H T BT N), BS, F. reflexivity.
Qed.

(** ** caches that leave out banks *)
Lemma skip_facts L O P hs hf : Forall position_ok L -> Forall free_ok O -> Forall all_free O -> NoDup (map (fun p => ti_index (pin_info p)) L) ->
  build_cache true L O P = Some hs -> build_cache false (map complete L) O P = Some hf ->
  covers (map pi_settle P) (hc_tokens hs) (hc_tokens hf) /\ NoDup (map ti_index (hc_tokens hs)) /\ NoDup (map ti_index (hc_tokens hf)) /\
  Forall token_ok (hc_tokens hf) /\ no_reserved hs /\ no_reserved hf /\ hc_perps hs = P /\ hc_perps hf = P.
Proof.
  intros HL HF HA N Bs Bf. unfold build_cache in Bs, Bf. rewrite build_tokens_full in Bf.
  destruct (build_tokens true L) as [T|] eqn:ET; [|discriminate]. destruct (build_serum true O T) as [[T1 R1]|] eqn:E1; [|discriminate].
  destruct (build_serum false O (map pin_info L)) as [[T2 R2]|] eqn:E2; [|discriminate]. cbn [andb] in Bs, Bf. apply some_inj in Bf; subst hf.
  destruct (forallb _ P) eqn:EP; [|discriminate]. cbn [negb] in Bs. apply some_inj in Bs; subst hs. rewrite forallb_forall in EP. cbn [hc_tokens hc_perps].
  assert (NF : NoDup (map ti_index (map pin_info L))) by (rewrite map_map; exact N).
  assert (ST : T = map pin_info (filter keep L)).
  { apply (build_tokens_skip [] L T ET HL). intros p _ _ []. }
  assert (C : covers (map pi_settle P) T (map pin_info L)).
  { apply (build_tokens_skip _ L T ET HL). intros p Hp Kp Hs. apply in_map_iff in Hs as (pi & Es & Hpi). specialize (EP _ Hpi).
    destruct (token_pos T1 (pi_settle pi)) eqn:EQ; [|discriminate]. assert (In (pi_settle pi) (map ti_index T1)) as Hin by (apply token_pos_in; congruence).
    rewrite (build_serum_idx _ _ _ _ _ E1), ST, Es in Hin. rewrite map_map in Hin. apply in_map_iff in Hin as (p' & Ep' & Hp'). apply filter_In in Hp' as [Hp1 Hp2].
    assert (p' = p); [|congruence]. clear -N Hp Hp1 Ep'. induction L as [|a L IH]; [destruct Hp|]. cbn [map] in N. inversion N as [|? ? N1 N2]; subst.
    destruct Hp as [<-|Hp], Hp1 as [<-|Hp1]; [reflexivity| | |apply IH; assumption]; exfalso; apply N1; apply in_map_iff; eauto. }
  assert (C' : covers (map pi_settle P) T1 T2) by (eapply build_serum_covers; eassumption).
  assert (N2 : NoDup (map ti_index T2)) by (rewrite (build_serum_idx _ _ _ _ _ E2); exact NF).
  assert (TO : Forall token_ok T2).
  { eapply build_serum_ok; [exact E2|]. clear -HL. induction HL as [|p L [H _] _ IH]; constructor; assumption. }
  assert (N1 : NoDup (map ti_index T1)).
  { clear -C' N2. induction C' as [|t u v A B Hu C IH|t A B Ht Hn C IH]; cbn [map] in *; [constructor| |]; inversion N2; subst.
    - constructor; [|apply IH; assumption]. intros X. apply (covers_incl _ _ _ C) in X. cbn [add_spot ti_index] in *. contradiction.
    - apply IH; assumption. }
  split; [exact C'|]. split; [exact N1|]. split; [exact N2|]. split; [exact TO|].
  split; [exact (build_serum_free _ _ HA _ _ _ E1)|]. split; [exact (build_serum_free _ _ HA _ _ _ E2)|]. split; reflexivity.
Qed.
(** health of a cache without reserved funds *)
Lemma plain_health hc ty h : no_reserved hc -> NoDup (map ti_index (hc_tokens hc)) -> health hc ty = Some h ->
  h = sum (map (fun t => contribution t ty (token_balance (hc_perps hc) ty t)) (hc_tokens hc)).
Proof. intros R N H. apply health_no_reserved in H as (B & HB & ->); [|exact R]. apply balances_map in HB; [|exact N]. subst B. rewrite contributions_map. reflexivity. Qed.
(** what a smaller balance and worse scaling do to the contribution of a token: the more of it there is, the less it lowers health *)
Lemma bump_contribution t x y d w ty P : token_ok t -> ti_scaled_aw t <= fst w -> ti_scaled_aw t <= snd w -> ti_scaled_lw t <= snd w -> ti_init_aw t <= ti_init_lw t -> ti_maint_aw t <= ti_maint_lw t ->
  d <= 0 -> x <= y ->
  let c t := contribution t ty (token_balance P ty t) in
  c (bump d w (add_spot t x)) - c (add_spot t x) <= c (bump d w (add_spot t y)) - c (add_spot t y) + 2.
Proof.
  intros T W1 W2 W3 H1 H2 D XY. cbv zeta. pose proof (asset_wp_le t ty ty (stricter_refl ty) T) as [A0 _]. pose proof (liab_wp_le t ty ty (stricter_refl ty) T) as [L0 _].
  set (u := bump d w t).
  assert (EA : forall z, asset_wp (bump d w (add_spot t z)) ty = asset_wp u ty) by (intros; destruct ty; reflexivity).
  assert (EL : forall z, liab_wp (bump d w (add_spot t z)) ty = liab_wp u ty) by (intros; destruct ty; reflexivity).
  assert (FA : forall z, asset_wp (add_spot t z) ty = asset_wp t ty) by (intros; destruct ty; reflexivity).
  assert (FL : forall z, liab_wp (add_spot t z) ty = liab_wp t ty) by (intros; destruct ty; reflexivity).
  destruct T as (T1 & T2 & T3 & T4 & T5 & T6).
  assert (P1 : 0 <= asset_price (ti_prices t) ty <= liab_price (ti_prices t) ty) by (destruct ty; cbn [asset_price liab_price]; lia).
  assert (UA : asset_wp t ty <= asset_wp u ty).
  { unfold asset_wp. apply fmul_mono; [|split; [apply P1|reflexivity]]. destruct ty; cbn [asset_weight u bump set_spot ti_scaled_aw ti_init_aw ti_maint_aw]; lia. }
  assert (UL : liab_wp t ty <= liab_wp u ty).
  { unfold liab_wp. apply fmul_mono; [|split; [lia|reflexivity]]. destruct ty; cbn [liab_weight u bump set_spot ti_scaled_lw ti_init_lw ti_maint_lw]; lia. }
  assert (UX : asset_wp t ty <= liab_wp u ty).
  { unfold asset_wp, liab_wp. apply fmul_mono; [|exact P1]. destruct ty; cbn [asset_weight liab_weight u bump set_spot ti_scaled_aw ti_init_aw ti_maint_aw ti_scaled_lw ti_init_lw ti_maint_lw]; lia. }
  set (S := sum (map (fun pi => if pi_settle pi =? ti_index t then hupnl pi ty else 0) P)).
  assert (B1 : forall z, token_balance P ty (add_spot t z) = ti_spot t + z + S) by reflexivity.
  assert (B2 : forall z, token_balance P ty (bump d w (add_spot t z)) = ti_spot t + z + S + d) by (intros; unfold token_balance, bump, set_spot, add_spot; cbn [ti_spot ti_index]; fold S; lia).
  rewrite !B1, !B2. pose proof (contribution_worth (add_spot t x) ty (ti_spot t + x + S)) as C1. pose proof (contribution_worth (add_spot t y) ty (ti_spot t + y + S)) as C2.
  pose proof (contribution_worth (bump d w (add_spot t x)) ty (ti_spot t + x + S + d)) as C3. pose proof (contribution_worth (bump d w (add_spot t y)) ty (ti_spot t + y + S + d)) as C4.
  rewrite ?EA, ?EL, ?FA, ?FL in *.
  set (k1 := contribution (bump d w (add_spot t x)) ty _) in *. set (k2 := contribution (add_spot t x) ty _) in *. set (k3 := contribution (bump d w (add_spot t y)) ty _) in *. set (k4 := contribution (add_spot t y) ty _) in *.
  set (a := ti_spot t + x + S) in *. set (b := ti_spot t + y + S) in *. assert (AB : a <= b) by (unfold a, b; lia). clearbody a b k1 k2 k3 k4.
  set (aw := asset_wp t ty) in *. set (aw' := asset_wp u ty) in *. set (lw := liab_wp t ty) in *. set (lw' := liab_wp u ty) in *. clearbody aw aw' lw lw'.
  clear - A0 L0 UA UL UX D AB C1 C2 C3 C4. unfold worth in *.
  assert (Z0 : (if a + d <? 0 then lw' else aw') * 0 = 0) by ring.
  enough (E : (a + d) * (if a + d <? 0 then lw' else aw') - a * (if a <? 0 then lw else aw) <= (b + d) * (if b + d <? 0 then lw' else aw') - b * (if b <? 0 then lw else aw)).
  { pose proof fone_pos. nia. }
  clear C1 C2 C3 C4. destruct (Z.ltb_spec (a + d) 0), (Z.ltb_spec a 0), (Z.ltb_spec (b + d) 0), (Z.ltb_spec b 0); try lia; nia.
Qed.
Lemma add_spot_at_is T i x t : In t (add_spot_at T i x) -> exists u y, In u T /\ t = add_spot u y.
Proof.
  revert i. induction T as [|u T IH]; intros [|i] H; cbn [add_spot_at] in H; [destruct H|destruct H| |].
  - destruct H as [<-|H]; [exists u, x; split; [left; reflexivity|reflexivity]|exists t, 0; split; [right; exact H|rewrite add_spot_0; reflexivity]].
  - destruct H as [<-|H]; [exists u, 0; split; [left; reflexivity|rewrite add_spot_0; reflexivity]|]. destruct (IH _ H) as (v & y & A & B). exists v, y. split; [right; exact A|exact B].
Qed.
Lemma build_serum_is skip O : forall T T' R, build_serum skip O T = Some (T', R) -> forall t, In t T' -> exists u y, In u T /\ t = add_spot u y.
Proof.
  induction O as [|o O IH]; intros T T' R H t I; cbn [build_serum] in H.
  - apply some_inj in H. apply pair_equal_spec in H as [-> _]. exists t, 0. rewrite add_spot_0. auto.
  - destruct (token_pos T (sin_base o)) as [i|]; [destruct (token_pos T (sin_quote o)) as [j|]|].
    + destruct (new_sinfo _ _ _ _ _ _); [|discriminate]. destruct (build_serum skip O _) as [[T1 R1]|] eqn:E; [|discriminate]. apply some_inj in H. apply pair_equal_spec in H as [<- _].
      destruct (IH _ _ _ E t I) as (u & y & U1 & ->). apply add_spot_at_is in U1 as (v & y1 & V1 & ->). apply add_spot_at_is in V1 as (z & y2 & X1 & ->). exists z, (y2 + (y1 + y)). split; [exact X1|]. rewrite !HealthSkip.add_spot_add. reflexivity.
    + destruct skip; [eapply IH; eassumption|discriminate].
    + destruct skip; [eapply IH; eassumption|discriminate].
Qed.
Lemma build_cache_is skip L O P hc t : build_cache skip L O P = Some hc -> In t (hc_tokens hc) -> exists q y, In q L /\ t = add_spot (pin_info q) y.
Proof.
  unfold build_cache. destruct (build_tokens skip L) as [T|] eqn:BT; [|discriminate]. destruct (build_serum skip O T) as [[T' R]|] eqn:BS; [|discriminate]. destruct (_ && _); [discriminate|].
  intros H I. apply some_inj in H. subst hc. cbn [hc_tokens] in I. destruct (build_serum_is _ _ _ _ _ BS t I) as (u & y & U1 & ->). destruct (build_tokens_from _ _ _ BT u U1) as (q & Q1 & <-).
  exists q, y. auto.
Qed.
Lemma covers_bump P ty A B : covers (map pi_settle P) A B -> forall idx i j d w, NoDup (map ti_index B) -> Forall token_ok B -> d <= 0 ->
  (forall t, In t B -> ti_index t = idx -> ti_scaled_aw t <= fst w /\ ti_scaled_aw t <= snd w /\ ti_scaled_lw t <= snd w /\ ti_init_aw t <= ti_init_lw t /\ ti_maint_aw t <= ti_maint_lw t) ->
  token_pos A idx = Some i -> token_pos B idx = Some j ->
  let h T := sum (map (fun t => contribution t ty (token_balance P ty t)) T) in
  h (update_nth A i (bump d w)) - h A <= h (update_nth B j (bump d w)) - h B + 2.
Proof.
  induction 1 as [|t x y A B Hxy C IH|t A B Ht Hn C IH]; intros idx i j d w N F D W Ei Ej; cbv zeta; [discriminate| |].
  - inversion F as [|? ? Ft FB]; subst. cbn [map] in N. inversion N as [|? ? N1 N2]; subst. cbn [token_pos add_spot ti_index] in Ei, Ej. destruct (Z.eqb_spec (ti_index t) idx) as [E|E].
    + apply some_inj in Ei, Ej. subst i j. cbn [update_nth map]. rewrite !sum_cons.
      destruct (W _ (or_introl eq_refl) E) as (W1 & W2 & W3 & W4 & W5). pose proof (bump_contribution t x y d w ty P Ft W1 W2 W3 W4 W5 D Hxy) as X. cbv beta zeta in X. lia.
    + destruct (token_pos A idx) as [i'|] eqn:Ea; [|discriminate]. destruct (token_pos B idx) as [j'|] eqn:Eb; [|discriminate]. cbn [option_map] in Ei, Ej. apply some_inj in Ei, Ej. subst i j.
      specialize (IH idx i' j' d w N2 FB D (fun u I => W u (or_intror I)) Ea Eb). cbv beta zeta in IH. cbn [update_nth map]. rewrite !sum_cons. lia.
  - inversion F as [|? ? Ft FB]; subst. cbn [map] in N. inversion N as [|? ? N1 N2]; subst. cbn [token_pos] in Ej. destruct (Z.eqb_spec (ti_index t) idx) as [E|E].
    + exfalso. apply N1. rewrite E. apply (covers_incl _ _ _ C). apply token_pos_in. congruence.
    + destruct (token_pos B idx) as [j'|] eqn:Eb; [|discriminate]. cbn [option_map] in Ej. apply some_inj in Ej. subst j.
      specialize (IH idx i j' d w N2 FB D (fun u I => W u (or_intror I)) Ei Eb). cbv beta zeta in IH. cbn [update_nth map]. rewrite !sum_cons. lia.
Qed.
(** health of a cache after [adjust_token_balance] *)
Lemma adjusted_plain hc idx d w hc' ty h : no_reserved hc -> NoDup (map ti_index (hc_tokens hc)) -> adjust_token_balance hc idx d w = Some hc' -> health hc' ty = Some h ->
  exists i, token_pos (hc_tokens hc) idx = Some i /\ h = sum (map (fun t => contribution t ty (token_balance (hc_perps hc) ty t)) (update_nth (hc_tokens hc) i (bump d w))).
Proof.
  unfold adjust_token_balance. intros R N A H. destruct (token_pos _ idx) as [i|] eqn:E; [|discriminate]. apply some_inj in A. subst hc'. exists i. split; [reflexivity|].
  apply plain_health in H; [exact H|exact R|]. cbn [hc_tokens]. rewrite update_nth_map; [exact N|]. intros t. reflexivity.
Qed.

(** ** the withdraw instruction, taken apart *)
Lemma withdraw_ix_inv e b p L O P flag net amount ab o : withdraw_ix e b p L O P flag net amount ab = Some o ->
  0 < amount /\
  exists flag' pre, wo_flag o = flag' /\
    (if we_region e then flag' = flag /\ pre = None
     else exists hc h h_end, build_cache true L O P = Some hc /\ health hc HInit = Some h /\ health hc HLiqEnd = Some h_end /\ pre_check flag h h_end = Some flag' /\ pre = Some (hc, h)) /\
    ((amount = U64_MAX /\ ab = false /\ native b p < 0 /\ o = mkWO b p true 0 flag' net None) \/
     (~ (amount = U64_MAX /\ ab = false /\ native b p < 0) /\
      exists r, token_withdraw b p amount ab (we_now e) (we_vault e) (we_price e) (we_price_ok e) = Some (wo_bank o, wo_pos o, r, wo_paid o) /\
      wo_active o = w_active r /\ (we_delegate e = true -> we_owner_ata e = true /\ w_active r = false) /\
      wo_net o = net - to_int (fmul (of_int (wo_paid o)) (we_price e)) /\
      match pre with
      | None => wo_cache o = None
      | Some (hc, h) =>
          match nth_info hc (wc_index (we_cfg e)) with
          | Some (_, t) => exists w hc' post, adjusted_weights (we_cfg e) (wo_bank o) (ti_prices t) = Some w /\
              adjust_token_balance hc (wc_index (we_cfg e)) (native (wo_bank o) (wo_pos o) - native b p) w = Some hc' /\
              health hc' HInit = Some post /\ post_check h post = true /\ wo_cache o = Some hc'
          | None => of_int (wo_paid o) <= native b p /\ 0 <= h /\ wo_cache o = Some hc
          end
      end)).
Proof.
  unfold withdraw_ix. intros H. destruct (guard (0 <? amount)) as [[]|] eqn:G; [|discriminate]. apply guard_some in G. apply Z.ltb_lt in G. split; [exact G|].
  destruct (if we_region e then _ else _) as [[flag' pre]|] eqn:X; [|discriminate].
  assert (X' : if we_region e then flag' = flag /\ pre = None
     else exists hc h h_end, build_cache true L O P = Some hc /\ health hc HInit = Some h /\ health hc HLiqEnd = Some h_end /\ pre_check flag h h_end = Some flag' /\ pre = Some (hc, h)).
  { destruct (we_region e); [apply some_inj in X; apply pair_equal_spec in X as [<- <-]; auto|].
    destruct (build_cache true L O P) as [hc|]; [|discriminate]. destruct (health hc HInit) as [h|] eqn:E1; [|discriminate]. destruct (health hc HLiqEnd) as [h2|] eqn:E2; [|discriminate].
    destruct (pre_check flag h h2) as [f|] eqn:E3; [|discriminate]. apply some_inj in X. apply pair_equal_spec in X as [<- <-]. exists hc, h, h2. auto 10. }
  clear X. destruct ((amount =? U64_MAX) && negb ab && (native b p <? 0)) eqn:E.
  - apply some_inj in H. subst o. exists flag', pre. split; [reflexivity|]. split; [exact X'|]. left. apply andb_prop in E as [E E3]. apply andb_prop in E as [E1 E2].
    apply Z.eqb_eq in E1. apply negb_true_iff in E2. apply Z.ltb_lt in E3. auto.
  - destruct (token_withdraw _ _ _ _ _ _ _ _) as [[[[b' p'] r] paid]|]; [|discriminate]. destruct (guard (negb _ || _)) as [[]|] eqn:G1; [|discriminate]. apply guard_some in G1.
    destruct (match pre with Some _ => _ | None => _ end) as [hco|] eqn:M; [|discriminate]. apply some_inj in H. subst o. exists flag', pre. split; [reflexivity|]. split; [exact X'|]. right.
    split. { intros (-> & -> & Q). apply Z.ltb_lt in Q. rewrite Q, Z.eqb_refl in E. discriminate. }
    exists r. cbn [wo_bank wo_pos wo_paid wo_active wo_net wo_cache]. split; [reflexivity|]. split; [reflexivity|].
    split. { intros Q. rewrite Q in G1. cbn [negb orb] in G1. apply andb_prop in G1 as [A B]. apply negb_true_iff in B. auto. }
    split; [reflexivity|]. destruct pre as [[hc h]|]; [|apply some_inj in M; subst; reflexivity].
    destruct (nth_info hc _) as [[i t]|].
    + destruct (adjusted_weights _ _ _) as [w|]; [|discriminate]. destruct (adjust_token_balance _ _ _ _) as [hc'|] eqn:A; [|discriminate]. destruct (health hc' HInit) as [post|] eqn:HP; [|discriminate].
      destruct (guard (post_check h post)) as [[]|] eqn:G2; [|discriminate]. apply guard_some in G2. apply some_inj in M. subst hco. exists w, hc', post. auto 10.
    + destruct (guard (negb _)) as [[]|] eqn:G2; [|discriminate]. apply guard_some in G2. apply negb_true_iff in G2. apply Z.ltb_ge in G2. destruct (guard (post_check_strict h)) as [[]|] eqn:G3; [|discriminate]. apply guard_some in G3.
      unfold post_check_strict in G3. apply Z.leb_le in G3. apply some_inj in M. subst hco. auto.
Qed.
(** the bank and position of a withdraw *)
Lemma withdraw_ix_moved e b p L O P flag net amount ab o : bank_holds b p -> withdraw_ix e b p L O P flag net amount ab = Some o ->
  bank_holds (wo_bank o) (wo_pos o) /\ t_ix (wo_pos o) <= t_ix p /\ b_dep (wo_bank o) <= b_dep b /\ b_bor b <= b_bor (wo_bank o) /\ b_serum (wo_bank o) = b_serum b /\
  b_di (wo_bank o) = b_di b /\ b_bi (wo_bank o) = b_bi b /\ native (wo_bank o) (wo_pos o) <= native b p.
Proof.
  intros BH H. apply withdraw_ix_inv in H as (_ & f & pre & _ & _ & [(_ & _ & _ & ->)|(_ & r & T & _)]).
  - cbn [wo_bank wo_pos]. split; [exact BH|]. do 6 (split; [lia|]). lia.
  - destruct BH as (D & B & LF & S & A1 & A2). pose proof (conj D B) as IO. fold (index_ok b) in IO. apply token_withdraw_inv in T as (_ & [(_ & _ & _ & E1 & E2 & _)|(_ & W & _)]).
    + rewrite E1, E2. split; [exact (conj D (conj B (conj LF (conj S (conj A1 A2)))))|]. do 6 (split; [lia|]). lia.
    + apply withdraw_spec in W as (_ & M & LE & _); [|exact IO|exact LF].
      split; [eapply moved_holds; [exact (conj D (conj B (conj LF (conj S (conj A1 A2)))))|exact M]|]. split; [exact LE|].
      pose proof (mv_dep _ _ _ _ M). pose proof (mv_bor _ _ _ _ M). pose proof (mv_di _ _ _ _ M) as Q1. pose proof (mv_bi _ _ _ _ M) as Q2.
      split; [lia|]. split; [lia|]. split; [apply M|]. split; [exact Q1|]. split; [exact Q2|]. apply native_le; assumption.
Qed.

(** ** the deposit instruction, taken apart *)
Lemma deposit_ix_inv e existing b p L O P flag net amount ro o : deposit_ix e existing b p L O P flag net amount ro = Some o ->
  (de_exists e = true \/ (existing = false /\ de_price_ok e = true)) /\
  exists active L', token_deposit b p amount ro (de_now e) = Some (do_bank o, do_pos o, active, do_paid o) /\
    do_closed o = negb existing && negb active /\ do_net o = net + to_int (fmul (of_int (do_paid o)) (de_price e)) /\
    positions_with (de_cfg e) (do_bank o) (do_pos o) L = Some L' /\ build_cache true L' O P = Some (do_cache o) /\
    (if negb (de_region e) && flag then exists h, health (do_cache o) HLiqEnd = Some h /\ - fone < h /\ do_flag o = false else do_flag o = flag) /\
    (0 < de_limit e -> length (hc_tokens (do_cache o)) = length L' /\ exists a l, assets_and_liabs (do_cache o) HInit true = Some (a, l) /\ to_int a <= de_limit e).
Proof.
  unfold deposit_ix. intros H. destruct (guard (de_exists e || _)) as [[]|] eqn:G; [|discriminate]. apply guard_some in G.
  split. { apply orb_prop in G as [G|G]; [left; exact G|right]. apply andb_prop in G as [G1 G2]. apply negb_true_iff in G1. auto. }
  destruct (token_deposit _ _ _ _ _) as [[[[b' p'] active] paid]|] eqn:TD; [|discriminate]. destruct (positions_with _ _ _ _) as [L'|] eqn:PW; [|discriminate]. destruct (build_cache true L' O P) as [hc|] eqn:BC; [|discriminate].
  destruct (if negb (de_region e) && flag then _ else _) as [flag'|] eqn:F; [|discriminate]. destruct (if 0 <? de_limit e then _ else _) as [[]|] eqn:D; [|discriminate]. apply some_inj in H. subst o.
  exists active, L'. cbn [do_bank do_pos do_paid do_closed do_net do_cache do_flag]. split; [exact eq_refl|]. do 2 (split; [reflexivity|]). split; [exact PW|]. split; [exact BC|]. split.
  - destruct (negb (de_region e) && flag) eqn:Q; [|apply some_inj in F; auto]. destruct (health hc HLiqEnd) as [h|]; [|discriminate]. apply andb_prop in Q as [_ ->].
    unfold recover in F. cbn [andb] in F. destruct (Z.ltb_spec (- fone) h) as [X|X]; cbn [negb] in F; [|discriminate]. apply some_inj in F. exists h. auto.
  - intros X. apply Z.ltb_lt in X. rewrite X in D. destruct (guard (Nat.eqb _ _)) as [[]|] eqn:G1; [|discriminate]. apply guard_some in G1. apply PeanoNat.Nat.eqb_eq in G1. split; [exact G1|].
    destruct (assets_and_liabs hc HInit true) as [[a l]|]; [|discriminate]. apply guard_some in D. apply Z.leb_le in D. exists a, l. auto.
Qed.
Lemma token_deposit_moved b p amount ro now b' p' act paid : bank_holds b p -> token_deposit b p amount ro now = Some (b', p', act, paid) ->
  bank_holds b' p' /\ t_ix p <= t_ix p' /\ b_di b' = b_di b /\ b_bi b' = b_bi b /\ b_serum b' = b_serum b /\ native b p <= native b' p' /\ (act = false -> t_ix p' = 0).
Proof.
  intros BH T. pose proof BH as (D & B & LF & S & A1 & A2). pose proof (conj D B) as IO. fold (index_ok b) in IO. apply token_deposit_inv in T as (_ & X & _). cbv zeta in X. unfold deposit in X.
  apply deposit_spec in X as (_ & M & _ & LE & _ & AF & _); [|exact IO]. pose proof (mv_di _ _ _ _ M) as Q1. pose proof (mv_bi _ _ _ _ M) as Q2.
  split; [eapply moved_holds; eassumption|]. split; [exact LE|]. split; [exact Q1|]. split; [exact Q2|]. split; [apply M|]. split; [|intros E; apply AF, E].
  assert (IO' : index_ok b') by (split; [rewrite Q1; exact D|rewrite Q2; exact B]). apply native_le; [exact IO'|symmetry; exact Q1|symmetry; exact Q2|exact LE].
Qed.
(** a bigger balance does not lower the health of types that do not use scaled weights *)
Lemma bump_up P ty T i d w : ty <> HInit -> Forall token_ok T -> 0 <= d ->
  let h T := sum (map (fun t => contribution t ty (token_balance P ty t)) T) in h T <= h (update_nth T i (bump d w)).
Proof.
  intros TY F D. cbv zeta. revert i. induction F as [|t T Ft F IH]; intros [|i]; cbn [update_nth map]; rewrite ?sum_cons; [lia|lia| |specialize (IH i); lia].
  enough (contribution t ty (token_balance P ty t) <= contribution (bump d w t) ty (token_balance P ty (bump d w t))) by lia.
  assert (E : forall b, contribution (bump d w t) ty b = contribution t ty b) by (intros b; destruct ty; [contradiction|reflexivity|reflexivity]). rewrite E.
  apply contribution_le; [apply stricter_refl|exact Ft|]. unfold token_balance. cbn [bump set_spot ti_spot ti_index]. lia.
Qed.
Lemma update_none T idx (f : tinfo -> tinfo) L : token_pos T idx = None -> map ti_index T = map (fun q => ti_index (pin_info q)) L -> ~ In idx (map (fun q => ti_index (pin_info q)) L).
Proof. intros N E I. rewrite <- E in I. apply token_pos_in in I. contradiction. Qed.
