(** Health when weights of assets fall. *)
From Coq Require Import List ZArith Lia Bool Arith.
From Verif Require Import Bank Health HealthSpec HealthFacts HealthDiv HealthOrders Scaling ScalingFacts LiqState AdminEdit AdminSpec AdminFacts Fixed.
Import ListNotations.
Open Scope Z_scope.

(** the same token, with assets counting the same or less *)
Definition dimmer (ty : htype) (t t' : tinfo) : Prop :=
  ti_index t' = ti_index t /\ ti_prices t' = ti_prices t /\ ti_spot t' = ti_spot t /\ liab_weight t' ty = liab_weight t ty /\
  (asset_weight t' ty = asset_weight t ty \/ 0 <= asset_weight t' ty <= asset_weight t ty) /\ priced t.
Lemma dim_pos0 ty T T' idx : Forall2 (dimmer ty) T T' -> token_pos T' idx = token_pos T idx.
Proof. induction 1 as [|t t' L L' (X & _) _ IH]; [reflexivity|]. cbn [token_pos]. rewrite X. destruct (_ =? _); [reflexivity|]. rewrite IH. reflexivity. Qed.
Lemma dim_length0 ty T T' : Forall2 (dimmer ty) T T' -> length T' = length T.
Proof. induction 1; cbn [length]; [reflexivity|]. f_equal. assumption. Qed.
Lemma dim_spots0 ty T T' : Forall2 (dimmer ty) T T' -> map ti_spot T' = map ti_spot T.
Proof. induction 1 as [|t t' L L' (_ & _ & X & _) _ IH]; [reflexivity|]. cbn [map]. rewrite X, IH. reflexivity. Qed.
Lemma dim_nth0 ty T T' : Forall2 (dimmer ty) T T' -> forall i, match nth_error T i, nth_error T' i with Some t, Some t' => dimmer ty t t' | None, None => True | _, _ => False end.
Proof. induction 1 as [|t t' L L' X _ IH]; intros [|i]; cbn [nth_error]; auto. apply IH. Qed.
Lemma dim_tokens0 ty T T' : (forall t t' x, dimmer ty t t' -> contribution t' ty x <= contribution t ty x) -> Forall2 (dimmer ty) T T' ->
  forall B, sum (token_contributions T' ty B) <= sum (token_contributions T ty B).
Proof.
  intros DC. unfold token_contributions. induction 1 as [|t t' L L' X _ IH]; intros B; [reflexivity|]. destruct B as [|x B]; [reflexivity|].
  cbn [combine map fst snd]. rewrite !sum_cons. apply Z.add_le_mono; [apply DC; exact X|apply IH].
Qed.
Section Dimmer.
Context (ty : htype) (T T' : list tinfo) (D : Forall2 (dimmer ty) T T').
Let dim_pos idx : token_pos T' idx = token_pos T idx := dim_pos0 ty T T' idx D.
Let dim_length : length T' = length T := dim_length0 ty T T' D.
Let dim_spots : map ti_spot T' = map ti_spot T := dim_spots0 ty T T' D.
Let dim_nth := dim_nth0 ty T T' D.
Lemma dim_balances O P : balances (mkHC T' O P) ty false = balances (mkHC T O P) ty false.
Proof.
  unfold balances. cbn [hc_tokens hc_perps]. rewrite dim_length, dim_spots.
  assert (X : forall acc, perp_balances T' ty false P acc = perp_balances T ty false P acc).
  { induction P as [|pi P' IH]; intros acc; [reflexivity|]. cbn [perp_balances]. rewrite dim_pos. destruct (token_pos T (pi_settle pi)); [apply IH|reflexivity]. }
  rewrite X. reflexivity.
Qed.
Lemma dim_reservations O : forall acc, reservations T' ty O acc = reservations T ty O acc.
Proof.
  induction O as [|si O IH]; intros acc; [reflexivity|]. cbn [reservations]. pose proof (dim_nth (si_quote si)) as Q. pose proof (dim_nth (si_base si)) as B.
  destruct (nth_error T (si_quote si)) as [q|], (nth_error T' (si_quote si)) as [q'|]; try (destruct Q; fail); [|reflexivity].
  destruct (nth_error T (si_base si)) as [b|], (nth_error T' (si_base si)) as [b'|]; try (destruct B; fail); [|reflexivity].
  destruct Q as (_ & PQ & _). destruct B as (_ & PB & _). unfold reserved_as_base, reserved_as_quote. rewrite PQ, PB.
  destruct (div_f64 _ _); [|reflexivity]. destruct (div_f64 _ _); [|reflexivity]. rewrite IH. reflexivity.
Qed.
Lemma price_nn t : priced t -> 0 < asset_price (ti_prices t) ty /\ 0 < liab_price (ti_prices t) ty.
Proof. intros [A B]. destruct ty; cbn [asset_price liab_price]; lia. Qed.
Lemma dim_contribution t t' x : dimmer ty t t' -> contribution t' ty x <= contribution t ty x.
Proof.
  intros (_ & P & _ & LW & AW & PR). unfold contribution, liab_wp, asset_wp. rewrite P, LW. pose proof (price_nn t PR) as [PA _].
  destruct AW as [->|AW]; [reflexivity|]. destruct (Z.ltb_spec x 0); [reflexivity|]. apply fmul_mono_r; [assumption|]. apply fmul_mono_l; lia.
Qed.
Lemma dim_effect t t' bal m r : dimmer ty t t' -> 0 <= r -> health_effect t' ty bal m r <= health_effect t ty bal m r.
Proof.
  intros (_ & P & _ & LW & AW & PR) R. unfold health_effect. cbv zeta. rewrite P, LW. pose proof (price_nn t PR) as [PA _].
  destruct AW as [->|AW]; [reflexivity|].
  assert (K : forall ap, 0 <= ap -> fmul (fmul ap (asset_weight t' ty)) (asset_price (ti_prices t) ty) <= fmul (fmul ap (asset_weight t ty)) (asset_price (ti_prices t) ty)).
  { intros ap H. apply fmul_mono_l; [lia|]. apply fmul_mono_r; lia. }
  destruct (Z.leb_spec r (bal + m)); [specialize (K r R); lia|]. destruct (Z.ltb_spec (bal + m) 0); [specialize (K 0 ltac:(lia)); lia|]. specialize (K (bal + m) ltac:(lia)). lia.
Qed.
Lemma res_nn si q b r : serum_ok si -> priced q -> priced b -> reserved_as_base si ty q b = Some r \/ reserved_as_quote si ty q b = Some r -> 0 <= r.
Proof.
  intros (S1 & S2 & S3 & S4) Q B. pose proof (price_nn q Q) as [Q1 Q2]. pose proof (price_nn b B) as [B1 B2]. unfold reserved_as_base, reserved_as_quote. intros [X|X].
  - destruct (div_f64 _ _) as [o|] eqn:E; [|discriminate]. apply some_inj in X; subst r. apply div_f64_nonneg in E; [|apply fmul_nonneg; lia|assumption]. destruct (_ =? 0); lia.
  - destruct (div_f64 _ _) as [o|] eqn:E; [|discriminate]. apply some_inj in X; subst r. apply div_f64_nonneg in E; [|apply fmul_nonneg; lia|assumption]. destruct (_ =? 0); lia.
Qed.
Lemma dim_serum B M O : Forall serum_ok O -> forall acc M0 R, reservations T ty O acc = Some (M0, R) ->
  sum (map (fun sr => serum_contribution T' ty B M (fst sr) (snd sr)) (combine O R)) <= sum (map (fun sr => serum_contribution T ty B M (fst sr) (snd sr)) (combine O R)).
Proof.
  induction 1 as [|si O Hs _ IH]; intros acc M0 R Hr; cbn [reservations] in Hr; [apply some_inj in Hr; injection Hr as <- <-; reflexivity|].
  pose proof (dim_nth (si_quote si)) as Q. pose proof (dim_nth (si_base si)) as Bb.
  destruct (nth_error T (si_quote si)) as [q|] eqn:Eq; [|discriminate]. destruct (nth_error T (si_base si)) as [b|] eqn:Eb; [|discriminate].
  destruct (reserved_as_base si ty q b) as [rb|] eqn:E1; [|discriminate]. destruct (reserved_as_quote si ty q b) as [rq|] eqn:E2; [|discriminate].
  destruct (reservations T ty O _) as [[M' R']|] eqn:E; [|discriminate]. apply some_inj in Hr. injection Hr as <- <-.
  specialize (IH _ _ _ E). cbn [combine map]. rewrite !sum_cons. cbn [fst snd]. apply Z.add_le_mono; [|exact IH].
  destruct (nth_error T' (si_quote si)) as [q'|] eqn:Eq'; [|destruct Q]. destruct (nth_error T' (si_base si)) as [b'|] eqn:Eb'; [|destruct Bb].
  unfold serum_contribution. rewrite Eq, Eb, Eq', Eb'. destruct (_ || _); [reflexivity|].
  assert (PQ : priced q) by apply Q. assert (PB : priced b) by apply Bb.
  apply Z.min_le_compat; (apply dim_effect; [assumption|apply (res_nn si q b); auto]).
Qed.
Let dim_tokens := dim_tokens0 ty T T' dim_contribution D.
Lemma dim_health O P x : Forall serum_ok O -> health (mkHC T O P) ty = Some x -> exists y, health (mkHC T' O P) ty = Some y /\ y <= x.
Proof.
  intros SO. unfold health. rewrite dim_balances. destruct (balances (mkHC T O P) ty false) as [B|]; [|discriminate]. unfold health_sum, serum_contributions. cbn [hc_tokens hc_serum].
  rewrite dim_reservations, dim_length. destruct (reservations T ty O _) as [[M R]|] eqn:E; [|discriminate]. intros H. apply some_inj in H. subst x. eexists. split; [reflexivity|].
  pose proof (dim_tokens B). pose proof (dim_serum B M O SO _ _ _ E). lia.
Qed.
End Dimmer.

(** ** new settings *)
Definition retuned (now : Z) (d : held_token) : Prop := tightened now (h_old d) (h_new d) /\ ranges (h_old d) /\ 0 < pr_oracle (h_prices d) /\ 0 < pr_stable (h_prices d).
Lemma tightened_cfg ix now s s' : tightened now s s' ->
  health_cfg ix now s' = mkWC ix (fst (maint_at s now)) (s_iaw s') (snd (maint_at s now)) (s_ilw s) (start_of (s_dscale s)) (start_of (s_bscale s)) (negb (s_dis s)).
Proof.
  intros (E & _ & _ & _ & _ & M). unfold health_cfg. assert (ME : maint_at s' now = maint_at s now) by (destruct M as [M|M]; apply M). rewrite ME.
  rewrite E. reflexivity.
Qed.
Lemma start_nn f z : at_least 0 f -> start_of f = Some z -> 0 <= z.
Proof.
  destruct f as [| |u]; cbn [start_of]; try discriminate. unfold at_least, start_of. intros H. destruct (u =? _); [discriminate|]. intros E. apply some_inj in E. subst z.
  rewrite Z.mul_0_l in H. apply Z.div_pos; [exact H|]. apply Z.pow_pos_nonneg; lia.
Qed.
Lemma above_at_least f : above 0 f -> at_least 0 f.
Proof. destruct f as [| |u]; unfold above, at_least; auto. rewrite Z.mul_0_l. lia. Qed.
Lemma info_dimmer now d t ty : retuned now d -> token_info (health_cfg (h_ix d) now (h_old d)) (h_bank d) (h_prices d) (h_native d) = Some t ->
  exists t', token_info (health_cfg (h_ix d) now (h_new d)) (h_bank d) (h_prices d) (h_native d) = Some t' /\ dimmer ty t t' /\ (ty = HMaint -> dimmer ty t' t).
Proof.
  intros (TG & R & P1 & P2) H. rewrite (tightened_cfg _ _ _ _ TG). destruct TG as (_ & IA & _). destruct R as (_ & (R1 & R2 & _) & _ & (_ & _ & _ & DS & _) & _).
  unfold token_info, health_cfg in *. set (s := h_old d) in *. set (ia := s_iaw (h_new d)) in *. clearbody ia.
  unfold scaled_init_asset_weight, scaled_init_liab_weight in *. cbn [wc_index wc_maint_aw wc_init_aw wc_maint_lw wc_init_lw wc_dep_start wc_bor_start wc_liq_ok] in *.
  set (dq := deposits_quote _ _) in *. set (bq := borrows_quote _ _) in *.
  assert (A : exists aw aw', (match start_of (s_dscale s) with None => Some (s_iaw s) | Some start => if dq <=? start then Some (s_iaw s) else option_map (fmul (s_iaw s)) (quot_fx start dq) end) = Some aw /\
     (match start_of (s_dscale s) with None => Some ia | Some start => if dq <=? start then Some ia else option_map (fmul ia) (quot_fx start dq) end) = Some aw' /\ (aw' = aw \/ 0 <= aw' <= aw)).
  { destruct (start_of (s_dscale s)) as [st|] eqn:ES.
    - destruct (Z.leb_spec dq st) as [Q|Q]; [exists (s_iaw s), ia; split; [reflexivity|]; split; [reflexivity|]; destruct IA; lia|].
      destruct (quot_fx st dq) as [q|] eqn:EQ; [|discriminate H]. cbn [option_map]. exists (fmul (s_iaw s) q), (fmul ia q). split; [reflexivity|]. split; [reflexivity|].
      apply start_nn in ES; [|apply above_at_least; exact DS]. pose proof (quot_fx_nonneg st dq q ES ltac:(lia) EQ) as QN.
      destruct IA as [->| ->]; [left; reflexivity|right]. rewrite fmul_0_l. split; [lia|]. apply fmul_nonneg; assumption.
    - exists (s_iaw s), ia. split; [reflexivity|]. split; [reflexivity|]. destruct IA; lia. }
  destruct A as (aw & aw' & EA & EA' & AA). rewrite EA in H. rewrite EA'. 
  match type of H with match ?o with _ => _ end = _ => destruct o as [lw|]; [|discriminate H] end.
  apply some_inj in H. subst t. eexists. split; [reflexivity|].
  assert (IA' : ia = s_iaw s \/ 0 <= ia <= s_iaw s) by (destruct IA; lia).
  split.
  - unfold dimmer. cbn [ti_index ti_prices ti_spot]. do 3 (split; [reflexivity|]). split; [destruct ty; reflexivity|]. split; [|split; assumption].
    destruct ty; cbn [asset_weight ti_scaled_aw ti_init_aw ti_maint_aw]; auto.
  - intros ->. unfold dimmer. cbn [ti_index ti_prices ti_spot]. do 3 (split; [reflexivity|]). split; [reflexivity|]. split; [left; reflexivity|]. split; assumption.
Qed.
Lemma infos_dimmer now D : Forall (retuned now) D -> forall T, infos now h_old D = Some T ->
  exists T', infos now h_new D = Some T' /\ (forall ty, Forall2 (dimmer ty) T T') /\ Forall2 (dimmer HMaint) T' T.
Proof.
  induction 1 as [|d D Hd _ IH]; intros T HT; cbn [infos] in *; [apply some_inj in HT; subst T; exists []; split; [reflexivity|]; split; [intros; constructor|constructor]|].
  destruct (token_info _ _ _ _) as [t|] eqn:E; [|discriminate]. destruct (infos now h_old D) as [T0|]; [|discriminate]. apply some_inj in HT. subst T.
  destruct (IH _ eq_refl) as (T' & E' & F1 & F2). rewrite E'.
  destruct (info_dimmer now d t HMaint Hd E) as (t' & Et & _ & D2). rewrite Et. exists (t' :: T'). split; [reflexivity|]. split.
  - intros ty. constructor; [|apply F1]. destruct (info_dimmer now d t ty Hd E) as (t2 & Et2 & D1 & _). rewrite Et in Et2. apply some_inj in Et2. subst t2. exact D1.
  - constructor; [apply D2; reflexivity|exact F2].
Qed.

(** ** perp markets whose positive pnl no longer counts for initial health *)
Definition muted (p p' : pinfo) : Prop := p' = p \/ p' = with_overall 0 p.
Lemma muted_hupnl ty p p' : muted p p' -> 0 <= pi_init_overall p -> hupnl p' ty <= hupnl p ty /\ (ty = HMaint -> hupnl p' ty = hupnl p ty).
Proof.
  intros [->| ->] H; [split; [reflexivity|reflexivity]|]. assert (U : uhupnl (with_overall 0 p) ty = uhupnl p ty) by reflexivity.
  unfold hupnl. cbv zeta. rewrite U. set (u := uhupnl p ty). clearbody u. split.
  - destruct (Z.ltb_spec 0 u); [|reflexivity]. destruct ty; cbn [overall_weight with_overall pi_init_overall pi_maint_overall]; try reflexivity; rewrite fmul_0_l; apply fmul_nonneg; lia.
  - intros ->. reflexivity.
Qed.
Lemma muted_part T ty P P' j : Forall2 muted P P' -> Forall (fun p => 0 <= pi_init_overall p) P ->
  perp_part T ty false P' j <= perp_part T ty false P j /\ (ty = HMaint -> perp_part T ty false P' j = perp_part T ty false P j).
Proof.
  induction 1 as [|p p' P P' M _ IH]; intros F; [split; reflexivity|]. inversion F as [|? ? F1 F2]; subst. specialize (IH F2).
  unfold perp_part in *. cbn [map]. rewrite !sum_cons. pose proof (muted_hupnl ty p p' M F1) as [L E].
  assert (S : pi_settle p' = pi_settle p) by (destruct M as [->| ->]; reflexivity). rewrite S. destruct (token_pos T (pi_settle p)) as [i|]; [|rewrite !Z.add_0_l; exact IH].
  cbn [negb orb]. destruct (i =? j)%nat; cbn [andb]; [|rewrite !Z.add_0_l; exact IH]. split; [apply Z.add_le_mono; [exact L|apply IH]|].
  intros ->. f_equal; [exact (E eq_refl)|apply IH; reflexivity].
Qed.
