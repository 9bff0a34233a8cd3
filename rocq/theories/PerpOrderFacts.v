(** Facts for PropPerpOrder: what changes of a perp position do to health. *)
From Coq Require Import List ZArith Lia Bool Arith.
From Verif Require Import OrderTree OrderTreeSpec Keys BookSide EventQueue PerpTypes Book BookSpec PerpSystem PerpSpec PerpInv PerpMoney Interest InterestFacts Bank Health HealthSpec HealthFacts HealthMore HealthSkip LiqState
  TokenLiq TokenLiqFacts SerumCache PerpLiqBase PerpLiqBaseSpec PerpLiqBaseFacts PerpLiqBaseIx PerpLiqNegSpec PerpLiqNegFacts PropPerpLiqNeg TokenMoveFacts SettleIxFacts PropSettleIx PropPerp PerpOrderIx Fixed.
Import ListNotations.
Open Scope Z_scope.

(** ** pnl *)
(** [pi'] is [pi] after [kb] of its bids and [ka] of its asks were filled, [cb] and [ca] were cancelled,
    and [dq] of quote was added *)
Record evolved (pi pi' : pinfo) (kb ka cb ca dq : Z) : Prop := {
  ev_w : (pi_maint_aw pi', pi_init_aw pi', pi_maint_lw pi', pi_init_lw pi', pi_lot pi', pi_prices pi') = (pi_maint_aw pi, pi_init_aw pi, pi_maint_lw pi, pi_init_lw pi, pi_lot pi, pi_prices pi);
  ev_o : (pi_settle pi', pi_maint_overall pi', pi_init_overall pi') = (pi_settle pi, pi_maint_overall pi, pi_init_overall pi);
  ev_base : pi_base pi' = pi_base pi + kb - ka;
  ev_bids : pi_bids pi' = pi_bids pi - kb - cb;
  ev_asks : pi_asks pi' = pi_asks pi - ka - ca;
  ev_quote : pi_quote pi' = pi_quote pi + dq }.
Lemma evolved_uhupnl pi pi' kb ka cb ca dq ty : evolved pi pi' kb ka cb ca dq -> perp_haircut pi ->
  0 <= kb -> 0 <= ka -> 0 <= cb -> 0 <= ca -> 0 <= pi_bids pi' -> 0 <= pi_asks pi' ->
  uhupnl pi ty + dq + kb * pi_lot pi * liab_price (pi_prices pi) ty - ka * pi_lot pi * asset_price (pi_prices pi) ty <= uhupnl pi' ty.
Proof.
  intros [W _ B BB AA Q] H KB KA CB CA B0 A0. pose proof (uhupnl_attained pi' ty) as AT.
  assert (W' : pi_maint_aw pi' = pi_maint_aw pi /\ pi_init_aw pi' = pi_init_aw pi /\ pi_maint_lw pi' = pi_maint_lw pi /\ pi_init_lw pi' = pi_init_lw pi /\ pi_lot pi' = pi_lot pi /\ pi_prices pi' = pi_prices pi) by (split; [|split; [|split; [|split; [|split]]]]; congruence).
  clear W. destruct W' as (W1 & W2 & W3 & W4 & W5 & W6).
  set (G := dq + kb * pi_lot pi * liab_price (pi_prices pi) ty - ka * pi_lot pi * asset_price (pi_prices pi) ty).
  assert (FV : forall b a, fills_value pi' ty b a = fills_value pi ty (b + kb) (a + ka) + fone * G).
  { intros b a. unfold fills_value, G. rewrite W1, W2, W3, W4, W5, W6, B, Q. cbv zeta. replace (pi_base pi + kb - ka + b - a) with (pi_base pi + (b + kb) - (a + ka)) by lia. ring. }
  rewrite !FV in AT. pose proof (uhupnl_fills pi ty (pi_bids pi' + kb) (0 + ka) H ltac:(lia) ltac:(lia)) as F1. pose proof (uhupnl_fills pi ty (0 + kb) (pi_asks pi' + ka) H ltac:(lia) ltac:(lia)) as F2.
  pose proof fone_pos as FP. replace (uhupnl pi ty + dq + _ - _) with (uhupnl pi ty + G) by (unfold G; lia).
  set (f1 := fills_value pi ty (pi_bids pi' + kb) _) in *. set (f2 := fills_value pi ty _ _) in *. set (u := uhupnl pi ty) in *. set (u' := uhupnl pi' ty) in *. clearbody G f1 f2 u u'. clear - AT F1 F2 FP. nia.
Qed.
Lemma hupnl_mono pi pi' ty : overall_weight pi' ty = overall_weight pi ty -> 0 <= overall_weight pi ty -> uhupnl pi ty <= uhupnl pi' ty -> hupnl pi ty <= hupnl pi' ty.
Proof.
  intros E W U. unfold hupnl. cbv zeta. rewrite E. destruct (Z.ltb_spec 0 (uhupnl pi ty)) as [A|A], (Z.ltb_spec 0 (uhupnl pi' ty)) as [B|B]; try lia.
  - apply fmul_mono; lia.
  - pose proof (fmul_nonneg (overall_weight pi ty) (uhupnl pi' ty) W ltac:(lia)). lia.
Qed.
Lemma hupnl_loss pi pi' ty k : overall_weight pi' ty = overall_weight pi ty -> 0 <= overall_weight pi ty <= fone -> 0 <= k -> uhupnl pi ty - k <= uhupnl pi' ty -> hupnl pi ty - k - 1 <= hupnl pi' ty.
Proof.
  intros E W K U. rewrite !hupnl_weigh, E. pose proof (weigh_shift (overall_weight pi ty) (uhupnl pi ty) k W K) as S.
  assert (M : weigh (overall_weight pi ty) (uhupnl pi ty - k) <= weigh (overall_weight pi ty) (uhupnl pi' ty)).
  { unfold weigh. destruct (Z.ltb_spec 0 (uhupnl pi ty - k)) as [A|A], (Z.ltb_spec 0 (uhupnl pi' ty)) as [B|B]; try lia.
    - apply fmul_mono; lia.
    - pose proof (fmul_nonneg (overall_weight pi ty) (uhupnl pi' ty) (proj1 W) ltac:(lia)). lia. }
  lia.
Qed.

(** ** health *)
Lemma perp_balances_same toks ty ign P1 P2 pi pi' : pi_settle pi' = pi_settle pi -> hupnl pi' ty = hupnl pi ty ->
  forall acc, perp_balances toks ty ign (P1 ++ pi' :: P2) acc = perp_balances toks ty ign (P1 ++ pi :: P2) acc.
Proof.
  intros S H. induction P1 as [|p P1 IH]; intros acc; cbn [app perp_balances]; [rewrite S, H; reflexivity|]. destruct (token_pos toks (pi_settle p)); [apply IH|reflexivity].
Qed.
Lemma health_same T S P1 P2 pi pi' ty : pi_settle pi' = pi_settle pi -> hupnl pi' ty = hupnl pi ty ->
  health (mkHC T S (P1 ++ pi' :: P2)) ty = health (mkHC T S (P1 ++ pi :: P2)) ty.
Proof. intros A B. unfold health, balances. cbn [hc_tokens hc_perps]. rewrite (perp_balances_same _ _ _ _ _ _ _ A B). reflexivity. Qed.
Lemma perp_sum_split P1 P2 pi (g : pinfo -> fx) : sum (map g (P1 ++ pi :: P2)) = sum (map g P1) + g pi + sum (map g P2).
Proof. rewrite map_app. cbn [map]. unfold sum. rewrite fold_right_app. cbn [fold_right]. induction (map g P1) as [|x L IH]; cbn [fold_right]; lia. Qed.
(** only the settle token's contribution changes *)
Lemma health_pnl T S P1 P2 pi pi' ty h h' : pi_settle pi' = pi_settle pi -> no_reserved (mkHC T S []) -> NoDup (map ti_index T) ->
  health (mkHC T S (P1 ++ pi :: P2)) ty = Some h -> health (mkHC T S (P1 ++ pi' :: P2)) ty = Some h' ->
  exists i t, nth_error T i = Some t /\ ti_index t = pi_settle pi /\
    let x := token_balance (P1 ++ pi :: P2) ty t in h' = h + (contribution t ty (x + (hupnl pi' ty - hupnl pi ty)) - contribution t ty x).
Proof.
  intros SE NR ND H H'.
  assert (TP : token_pos T (pi_settle pi) <> None).
  { unfold health in H. destruct (balances _ ty false) as [B|] eqn:HB; [|discriminate]. apply balances_spec in HB as (_ & _ & F). rewrite Forall_forall in F. apply (F pi). cbn [hc_perps]. apply in_or_app. right. left. reflexivity. }
  destruct (token_pos T (pi_settle pi)) as [i|] eqn:Ei; [|contradiction]. apply token_pos_lt in Ei as (_ & t & Nt & It). exists i, t. split; [exact Nt|]. split; [exact It|]. cbv zeta.
  apply plain_health in H; [|exact NR|exact ND]. apply plain_health in H'; [|exact NR|exact ND]. cbn [hc_tokens hc_perps] in H, H'.
  assert (UN : T = update_nth T i (fun u => u)). { clear. revert i. induction T as [|u T IH]; intros [|i]; cbn [update_nth]; [reflexivity|reflexivity|reflexivity|]. rewrite <- IH. reflexivity. }
  rewrite UN in H'. rewrite (sum_change (fun u => contribution u ty (token_balance (P1 ++ pi :: P2) ty u)) _ (fun u => u) i t T ND Nt) in H'.
  2:{ intros u _ Nu. f_equal. unfold token_balance. f_equal. rewrite !perp_sum_split. rewrite SE. destruct (Z.eqb_spec (pi_settle pi) (ti_index u)); [congruence|]. lia. }
  rewrite <- H in H'. rewrite H'. f_equal. f_equal. f_equal. unfold token_balance. rewrite !perp_sum_split, SE, It, Z.eqb_refl. lia.
Qed.
Lemma health_pnl_up T S P1 P2 pi pi' ty h h' : pi_settle pi' = pi_settle pi -> no_reserved (mkHC T S []) -> NoDup (map ti_index T) -> Forall token_ok T ->
  health (mkHC T S (P1 ++ pi :: P2)) ty = Some h -> health (mkHC T S (P1 ++ pi' :: P2)) ty = Some h' -> hupnl pi ty <= hupnl pi' ty -> h <= h'.
Proof.
  intros SE NR ND TO H H' U. destruct (health_pnl _ _ _ _ _ _ _ _ _ SE NR ND H H') as (i & t & Nt & It & E). cbv zeta in E. rewrite Forall_forall in TO. specialize (TO t (nth_error_In _ _ Nt)).
  pose proof (contribution_le t ty ty (token_balance (P1 ++ pi :: P2) ty t) (token_balance (P1 ++ pi :: P2) ty t + (hupnl pi' ty - hupnl pi ty)) (stricter_refl ty) TO ltac:(lia)). lia.
Qed.
Lemma health_pnl_loss T S P1 P2 pi pi' ty h h' k : pi_settle pi' = pi_settle pi -> no_reserved (mkHC T S []) -> NoDup (map ti_index T) -> Forall token_ok T ->
  health (mkHC T S (P1 ++ pi :: P2)) ty = Some h -> health (mkHC T S (P1 ++ pi' :: P2)) ty = Some h' -> 0 <= k -> hupnl pi ty - k <= hupnl pi' ty ->
  exists t, In t T /\ ti_index t = pi_settle pi /\ - (k * top_price t ty + fone) < (h' - h) * fone.
Proof.
  intros SE NR ND TO H H' K U. destruct (health_pnl _ _ _ _ _ _ _ _ _ SE NR ND H H') as (i & t & Nt & It & E). cbv zeta in E. rewrite Forall_forall in TO. specialize (TO t (nth_error_In _ _ Nt)).
  exists t. split; [eapply nth_error_In, Nt|]. split; [exact It|]. rewrite E, Z.add_simpl_l.
  apply (contribution_step t ty _ _ k (Z.max (hupnl pi' ty - hupnl pi ty) 0) TO); lia.
Qed.

(** ** positions *)
Lemma hupnl_ext pi pi' ty : (pi_maint_aw pi', pi_init_aw pi', pi_maint_lw pi', pi_init_lw pi', pi_lot pi', pi_prices pi') = (pi_maint_aw pi, pi_init_aw pi, pi_maint_lw pi, pi_init_lw pi, pi_lot pi, pi_prices pi) ->
  (pi_settle pi', pi_maint_overall pi', pi_init_overall pi') = (pi_settle pi, pi_maint_overall pi, pi_init_overall pi) ->
  pi_base pi' = pi_base pi -> pi_bids pi' = pi_bids pi -> pi_asks pi' = pi_asks pi -> pi_quote pi' = pi_quote pi -> hupnl pi' ty = hupnl pi ty.
Proof.
  intros A B E1 E2 E3 E4. apply pair_equal_spec in A as [A A6]. apply pair_equal_spec in A as [A A5]. apply pair_equal_spec in A as [A A4]. apply pair_equal_spec in A as [A A3]. apply pair_equal_spec in A as [A1 A2].
  apply pair_equal_spec in B as [B B3]. apply pair_equal_spec in B as [B1 B2].
  unfold hupnl, uhupnl, execution_case, overall_weight. cbv zeta. rewrite A1, A2, A3, A4, A5, A6, B2, B3, E1, E2, E3, E4. reflexivity.
Qed.
Lemma viewed_oi v mk x p : viewed v (with_oi mk x) p = viewed v mk p.
Proof. reflexivity. Qed.
Lemma settled_zero mk b q bb aa tb tq o : unsettled_funding (mkPos b q bb aa tb tq (mk_long_funding mk) (mk_short_funding mk) o) mk = 0.
Proof. unfold unsettled_funding. cbn [p_base p_long_settled p_short_settled]. rewrite !Z.sub_diag, !fmul_0_l. destruct (0 <? b); [|destruct (b <? 0)]; reflexivity. Qed.
Lemma ints a b : fmul (of_int a) (of_int b) = of_int (a * b).
Proof. rewrite fmul_int_l. unfold of_int. lia. Qed.
Lemma taker_viewed a mk f a' mk' v ty : execute_taker a mk f = Some (a', mk') ->
  exists p p' x, a_pos a = Some p /\ a_pos a' = Some p' /\ mk' = with_oi mk x /\ hupnl (viewed v mk' p') ty = hupnl (viewed v mk p) ty /\ p_bids p' = p_bids p /\ p_asks p' = p_asks p.
Proof.
  unfold execute_taker. destruct (a_pos a) as [p|]; [|discriminate]. destruct (base_quote_change f (f_taker_side f)) as [b q]. cbn [record_trade remove_taker_trade settle_funding]. intros E. apply some_inj in E. apply pair_equal_spec in E as [<- <-].
  exists p. eexists. eexists. split; [reflexivity|]. split; [reflexivity|]. split; [reflexivity|]. split; [|split; reflexivity]. rewrite viewed_oi.
  apply hupnl_ext; try reflexivity; unfold viewed, new_pinfo, remove_taker_trade, settle_funding; cbv zeta; cbn [pi_base pi_quote p_base p_bids p_asks p_long_settled p_short_settled p_oneshot p_taker_base p_quote p_taker_quote]; [lia|].
  rewrite settled_zero, ints. unfold of_int. lia.
Qed.
(** what a fill costs the maker beyond what health counted on: by price, and the fee *)
Definition maker_cost (v : pview) (mk : market) (f : fill) (ty : htype) : fx :=
  let q := of_int (f_price f * f_qty f * mk_qls mk) in
  (if f_taker_side f then f_qty f * mk_bls mk * asset_price (pv_prices v) ty - q else q - f_qty f * mk_bls mk * liab_price (pv_prices v) ty)
  + fmul (Z.abs q) (f_maker_fee f).
Lemma maker_viewed a mk f a' mk' v : 0 < f_qty f -> execute_maker a mk f = Some (a', mk') ->
  exists p p' x, a_pos a = Some p /\ a_pos a' = Some p' /\ mk' = with_oi mk x /\
    evolved (viewed v mk p) (viewed v mk' p') (if f_taker_side f then 0 else f_qty f) (if f_taker_side f then f_qty f else 0) 0 0
      (let q := of_int (f_price f * f_qty f * mk_qls mk) in (if f_taker_side f then q else - q) - fmul (Z.abs q) (f_maker_fee f)).
Proof.
  intros Q. unfold execute_maker. destruct (base_quote_change f (negb (f_taker_side f))) as [b q] eqn:BQ. destruct (a_pos a) as [p|]; [|discriminate].
  cbn [record_trade record_trading_fee settle_funding]. destruct (slot_at _ _) as [s|]; [|discriminate]. intros E.
  assert (X : exists p', a_pos a' = Some p' /\ mk' = with_oi mk (mk_open_interest mk + (Z.abs (p_base p + b) - Z.abs (p_base p))) /\
    p' = adjust_maker_lots (mkPos (p_base p + b) (p_quote p - unsettled_funding p mk - fmul (Z.abs (fmul (of_int (mk_qls mk)) (of_int q))) (f_maker_fee f) + fmul (of_int (mk_qls mk)) (of_int q)) (p_bids p) (p_asks p) (p_taker_base p) (p_taker_quote p) (mk_long_funding mk) (mk_short_funding mk) (p_oneshot p - unsettled_funding p mk - fmul (Z.abs (fmul (of_int (mk_qls mk)) (of_int q))) (f_maker_fee f))) (negb (f_taker_side f)) (- Z.abs b)).
  { eexists. split; [|split; [|reflexivity]]; destruct (_ && _); apply some_inj in E; apply pair_equal_spec in E as [<- <-]; reflexivity. }
  clear E. destruct X as (p' & P' & M & EP). exists p, p'. eexists. split; [reflexivity|]. split; [exact P'|]. split; [exact M|]. rewrite M, viewed_oi. rewrite ints in EP.
  unfold base_quote_change in BQ. cbv zeta. destruct (f_taker_side f); cbn [negb] in BQ, EP; apply pair_equal_spec in BQ as [<- <-]; cbn [adjust_maker_lots] in EP; subst p';
    (constructor; [reflexivity|reflexivity|unfold viewed, new_pinfo; cbn [pi_base pi_bids pi_asks p_base p_taker_base p_bids p_asks]; lia ..|]);
    unfold viewed, new_pinfo; cbn [pi_quote p_quote p_taker_quote p_base p_bids p_asks p_taker_base p_long_settled p_short_settled p_oneshot]; rewrite ?settled_zero.
  - replace (f_price f * f_qty f * mk_qls mk) with (mk_qls mk * (f_price f * f_qty f)) by ring. lia.
  - replace (mk_qls mk * (- f_price f * f_qty f)) with (- (f_price f * f_qty f * mk_qls mk)) by ring. rewrite of_int_opp, Z.abs_opp. lia.
Qed.
Lemma lots_viewed v mk p sd q : evolved (viewed v mk p) (viewed v mk (adjust_maker_lots p sd (- q))) 0 0 (if sd then q else 0) (if sd then 0 else q) 0.
Proof.
  destruct sd; (constructor; [reflexivity|reflexivity|unfold viewed, new_pinfo, adjust_maker_lots; cbn [pi_base pi_bids pi_asks p_base p_taker_base p_bids p_asks]; lia ..|]);
  unfold viewed, new_pinfo, adjust_maker_lots; cbn [pi_quote p_quote p_taker_quote]; unfold unsettled_funding; cbn [p_base p_long_settled p_short_settled]; lia.
Qed.

(** ** histories *)
Lemma run_ops_app L1 L2 y : run_ops y (L1 ++ L2) = match run_ops y L1 with Some y1 => run_ops y1 L2 | None => None end.
Proof. revert y. induction L1 as [|x L1 IH]; intros y; [reflexivity|]. cbn [app run_ops]. destruct (step y x); [apply IH|reflexivity]. Qed.
Lemma reached_step cap capq y x y' : PerpSystem.reached cap capq y -> op_wf x -> step y x = Some y' -> PerpSystem.reached cap capq y'.
Proof.
  intros (buf & idx & bls & qls & mf & tf & pe & aw & lw & L & H1 & H2 & H3 & H4 & H5) W S. exists buf, idx, bls, qls, mf, tf, pe, aw, lw, (L ++ [x]).
  split; [exact H1|]. split; [exact H2|]. split; [exact H3|]. split; [apply Forall_app; split; [exact H4|constructor; [exact W|constructor]]|]. rewrite run_ops_app, H5. cbn [run_ops]. rewrite S. reflexivity.
Qed.
(** a cancel only lowers the order lots of the account *)
Definition lowered (p p' : position) (cb ca : Z) : Prop := 0 <= cb /\ 0 <= ca /\ p' = mkPos (p_base p) (p_quote p) (p_bids p - cb) (p_asks p - ca) (p_taker_base p) (p_taker_quote p) (p_long_settled p) (p_short_settled p) (p_oneshot p).
Lemma lowered_refl p : lowered p p 0 0.
Proof. split; [lia|]. split; [lia|]. rewrite !Z.sub_0_r. destruct p; reflexivity. Qed.
Lemma lowered_trans p p1 p2 a b c d : lowered p p1 a b -> lowered p1 p2 c d -> lowered p p2 (a + c) (b + d).
Proof. intros (A1 & A2 & ->) (B1 & B2 & ->). split; [lia|]. split; [lia|]. cbn. f_equal; lia. Qed.
Lemma lowered_viewed v mk p p' cb ca : lowered p p' cb ca -> evolved (viewed v mk p) (viewed v mk p') 0 0 cb ca 0.
Proof.
  intros (_ & _ & ->). constructor; [reflexivity|reflexivity|unfold viewed, new_pinfo; cbn [pi_base pi_bids pi_asks p_base p_taker_base p_bids p_asks]; lia ..|].
  unfold viewed, new_pinfo; cbn [pi_quote p_quote p_taker_quote]; unfold unsettled_funding; cbn [p_base p_long_settled p_short_settled]; lia.
Qed.
Lemma cancelled_lowered cap seq bk a mkt pk i bk' a' p : book_ok cap seq bk -> cancelled bk a mkt pk i bk' a' -> a_pos a = Some p -> exists p' cb ca, a_pos a' = Some p' /\ lowered p p' cb ca.
Proof.
  intros BO (s & p0 & p' & q & _ & _ & Hp & Hp' & _ & _ & E & Q) P. rewrite P in Hp. apply some_inj in Hp. subst p0. exists p', (if s_side s then q else 0), (if s_side s then 0 else q). split; [exact Hp'|].
  assert (Q0 : 0 <= q). { destruct Q as [(l & _ & _ & _ & -> & PM)|(-> & _)]; [|lia]. destruct (BO (s_side s)) as (_ & _ & H2 & _).
    assert (I : In (s_comp s, l) (resting (s_side s) bk)) by (apply (Permutation.Permutation_in _ (Permutation.Permutation_sym PM)); left; reflexivity). destruct (H2 _ I) as [G _]. cbn [snd] in G. lia. }
  split; [destruct (s_side s); lia|]. split; [destruct (s_side s); lia|]. rewrite E. destruct (s_side s); rewrite Z.sub_0_r; reflexivity.
Qed.
Lemma cancel_all_lowered cap seq bk a mkt pk limit only i n bk' a' : book_ok cap seq bk -> cancel_all bk a mkt pk limit only i n = Some (bk', a') ->
  forall p, a_pos a = Some p -> exists p' cb ca, a_pos a' = Some p' /\ lowered p p' cb ca.
Proof.
  intros B H p P. refine (proj1 (cancel_all_ind cap seq mkt pk only (fun _ x => exists p' cb ca, a_pos x = Some p' /\ lowered p p' cb ca) _ _ _ _ _ _ _ _ B _ H)).
  - intros bk0 a0 i0 bk1 a1 (p1 & c1 & c2 & P1 & L1) B0 C0 _. destruct (cancelled_lowered _ _ _ _ _ _ _ _ _ p1 B0 C0 P1) as (p2 & c3 & c4 & P2 & L2). exists p2, (c1 + c3), (c2 + c4). split; [exact P2|]. eapply lowered_trans; eassumption.
  - exists p, 0, 0. split; [exact P|apply lowered_refl].
Qed.

(** ** the instruction, taken apart *)
Lemma new_order_index bk o mk q oracle a pk now limit r : new_order bk o mk q oracle a pk now limit = Some r ->
  mk_index (r_market r) = mk_index mk.
Proof.
  unfold new_order. cbv zeta. destruct (native_price_to_lot mk oracle) as [ol|]; [|discriminate]. destruct (bs_items _ _ _ _) as [L|]; [|discriminate].
  destruct (order_price _ _ _) as [[price pd]|]; [|discriminate]. destruct (gen_order_id _ _ _) as [[seq id]|]; [|discriminate]. destruct (a_pos a) as [p|]; [|discriminate].
  assert (G : forall x : market * position, x = (if needs_penalty o then apply_penalty (with_seq mk seq) p else (with_seq mk seq, p)) -> mk_index (fst x) = mk_index mk) by (intros x ->; destruct (needs_penalty o); reflexivity).
  destruct (if needs_penalty o then _ else _) as [mk1 p1]. specialize (G _ eq_refl). cbn [fst] in G. rewrite <- G.
  destruct (match_loop _ _ _) as [m|]; [|discriminate]. destruct (_ || _); [discriminate|].
  assert (G2 : forall x, (if (0 <? o_max_quote o - m_rem_quote m) || (0 <? o_max_base o - m_rem_base m) then apply_fees mk1 (add_taker_trade p1 (o_side o) (o_max_base o - m_rem_base m) (o_max_quote o - m_rem_quote m)) (o_max_quote o - m_rem_quote m - m_dec_quote m) else Some (mk1, p1)) = Some x -> mk_index (fst x) = mk_index mk1).
  { intros [mk2 p2]. destruct (_ || _); [unfold apply_fees; cbv zeta; destruct (_ <? 0); [discriminate|]; destruct (_ <? 0); [discriminate|]|]; intros E; apply some_inj in E; apply pair_equal_spec in E as [<- _]; reflexivity. }
  destruct (if (0 <? _) || _ then _ else _) as [[mk2 p2]|]; [|discriminate]. specialize (G2 _ eq_refl). cbn [fst] in G2. rewrite <- G2.
  destruct (apply_changes _ _ _) as [s1|]; [|discriminate]. destruct (apply_deletes _ _ _) as [s2|]; [|discriminate].
  destruct (if _ <=? 0 then _ else _) as [c|]; [|intros E; apply some_inj in E; subst r; reflexivity].
  destruct (inside_price_limit _ _ _ _); [|intros E; apply some_inj in E; subst r; reflexivity].
  destruct (post_order _ _ _ _ _ _ _ _ _ _ _ _) as [[[s' q'] a']|]; [|discriminate]. intros E; apply some_inj in E; subst r; reflexivity.
Qed.
Lemma update_funding_is bk mk fc last oracle now mk' last' : update_funding bk mk fc last oracle now = Some (mk', last') -> exists l s, mk' = with_funding mk l s.
Proof.
  unfold update_funding. destruct (now <=? last). { intros E. apply some_inj in E. apply pair_equal_spec in E as [<- _]. exists (mk_long_funding mk), (mk_short_funding mk). destruct mk; reflexivity. }
  destruct (native_price_to_lot _ _); [|discriminate]. destruct (bs_valid_items Bid _ _ _); [|discriminate]. destruct (bs_valid_items Ask _ _ _); [|discriminate]. destruct (funding_rate _ _ _ _ _); [|discriminate].
  cbv zeta. intros E. apply some_inj in E. apply pair_equal_spec in E as [<- _]. eauto.
Qed.
Lemma perp_pos_at P1 P2 pi : ~ In (pi_market pi) (map pi_market P1) -> perp_pos (P1 ++ pi :: P2) (pi_market pi) = Some (length P1).
Proof.
  unfold perp_pos. induction P1 as [|p P1 IH]; intros N; cbn [app position_of length]; [rewrite Z.eqb_refl; reflexivity|].
  cbn [map In] in N. destruct (Z.eqb_spec (pi_market p) (pi_market pi)); [exfalso; apply N; left; assumption|]. rewrite IH by (intros K; apply N; right; exact K). reflexivity.
Qed.
Lemma update_mid {A} (P1 P2 : list A) x f : update_nth (P1 ++ x :: P2) (length P1) f = P1 ++ f x :: P2.
Proof. induction P1 as [|p P1 IH]; cbn [app length update_nth]; [reflexivity|]. rewrite IH. reflexivity. Qed.
(** the perps only decide whether a cache can be built *)
Lemma build_perps skip L O P P' hc : map pi_settle P' = map pi_settle P -> build_cache skip L O P = Some hc -> build_cache skip L O P' = Some (mkHC (hc_tokens hc) (hc_serum hc) P').
Proof.
  intros E. unfold build_cache. destruct (build_tokens skip L) as [T|]; [|discriminate]. destruct (build_serum skip O T) as [[T' R]|]; [|discriminate].
  assert (F : forallb (fun pi => match token_pos T' (pi_settle pi) with Some _ => true | None => false end) P' = forallb (fun pi => match token_pos T' (pi_settle pi) with Some _ => true | None => false end) P).
  { revert P E. induction P' as [|p' P' IH]; intros [|p P] E; try discriminate E; [reflexivity|]. cbn [map] in E. injection E as E1 E2. cbn [forallb]. rewrite E1, (IH P E2). reflexivity. }
  rewrite F. destruct (skip && _); [discriminate|]. intros X. apply some_inj in X. subst hc. reflexivity.
Qed.
Lemma settle_split v mk mk' (a : pacct) p p' : map pi_settle (perps_of v mk' a (Some p')) = map pi_settle (perps_of v mk a (Some p)).
Proof. unfold perps_of. rewrite !map_app. reflexivity. Qed.
Lemma recompute_is skip v mk mk' a p p' hc hc' : ~ In (mk_index mk) (map pi_market (pa_P1 a)) -> mk_index mk' = mk_index mk ->
  build_cache skip (pa_L a) (pa_O a) (perps_of v mk a (Some p)) = Some hc -> recompute_perp hc p' mk' (pv_settle v) (pv_par v) = Some hc' ->
  hc_tokens hc' = hc_tokens hc /\ hc_serum hc' = hc_serum hc /\ build_cache skip (pa_L a) (pa_O a) (perps_of v mk' a (Some p')) = Some hc'.
Proof.
  intros N I B R. assert (HP : hc_perps hc = perps_of v mk a (Some p)).
  { clear - B. unfold build_cache in B. destruct (build_tokens _ _); [|discriminate]. destruct (build_serum _ _ _) as [[T' S]|]; [|discriminate]. destruct (_ && _); [discriminate|]. apply some_inj in B. subst hc. reflexivity. }
  unfold recompute_perp in R. rewrite HP, I in R. unfold perps_of in R. cbn [app] in R.
  change (mk_index mk) with (pi_market (viewed v mk p)) in R at 1. rewrite perp_pos_at in R by exact N. apply some_inj in R. subst hc'. cbn [hc_tokens hc_serum].
  split; [reflexivity|]. split; [reflexivity|]. rewrite update_mid. rewrite (build_perps skip _ _ _ _ _ (settle_split v mk mk' a p p') B). reflexivity.
Qed.
Lemma place_inv e bk mk q last a o ro limit x : perp_place_order e bk mk q last a o ro limit = Some x ->
  0 <= o_max_base o /\ 0 <= o_max_quote o /\ pe_signed e = true /\
  exists mk1 p o' r, update_funding bk mk (pe_fc e) last (pe_oracle e) (pe_now e) = Some (mk1, po_last x) /\ a_pos (ensure_position (pa_acc a)) = Some p /\
    reduced_order ro (pe_ro e) p o = Some o' /\ new_order bk o' mk1 q (pe_oracle e) (ensure_position (pa_acc a)) (pa_pk a) (pe_now e) limit = Some r /\
    po_book x = r_book r /\ po_market x = r_market r /\ po_q x = r_q r /\ po_acc x = r_acc r /\ po_id x = r_id r /\
    ((pa_region a = true /\ po_flag x = pa_flag a) \/
     (pa_region a = false /\ exists hc h h2 p' hc' post,
        build_cache true (pa_L a) (pa_O a) (perps_of (pe_view e) mk1 a (Some p)) = Some hc /\ health hc HInit = Some h /\ health hc HLiqEnd = Some h2 /\
        pre_check (pa_flag a) h h2 = Some (po_flag x) /\ a_pos (r_acc r) = Some p' /\
        recompute_perp hc p' (r_market r) (pv_settle (pe_view e)) (pv_par (pe_view e)) = Some hc' /\ health hc' HInit = Some post /\ post_check h post = true /\ po_cache x = Some hc')).
Proof.
  unfold perp_place_order. intros H. destruct (guard (_ && _)) eqn:G0; [|discriminate]. unfold guard in G0. destruct (_ && _) eqn:G1; [|discriminate]. clear G0. apply andb_prop in G1 as [G1 G2]. apply Z.leb_le in G1, G2.
  destruct (update_funding _ _ _ _ _ _) as [[mk1 last1]|]; [|discriminate]. destruct (pe_signed e); [|discriminate]. cbn [guard] in H. cbv zeta in H.
  split; [exact G1|]. split; [exact G2|]. split; [reflexivity|]. destruct (a_pos (ensure_position (pa_acc a))) as [p|]; [|discriminate]. exists mk1, p. destruct (pa_region a).
  - destruct (reduced_order _ _ _ _) as [o'|] eqn:ER; [|discriminate]. destruct (new_order _ _ _ _ _ _ _ _ _) as [r|] eqn:EN; [|discriminate]. apply some_inj in H. subst x. cbn [po_last po_book po_market po_q po_acc po_id po_flag].
    exists o', r. do 9 (split; [reflexivity || assumption|]). left. split; reflexivity.
  - destruct (build_cache _ _ _ _) as [hc|]; [|discriminate]. destruct (token_pos _ _); [|discriminate]. destruct (health hc HInit) as [h|] eqn:E1; [|discriminate]. destruct (health hc HLiqEnd) as [h2|] eqn:E2; [|discriminate].
    destruct (pre_check _ _ _) as [f|] eqn:E3; [|discriminate]. destruct (reduced_order _ _ _ _) as [o'|] eqn:ER; [|discriminate]. destruct (new_order _ _ _ _ _ _ _ _ _) as [r|] eqn:EN; [|discriminate].
    destruct (a_pos (r_acc r)) as [p'|] eqn:E4; [|discriminate]. destruct (recompute_perp _ _ _ _ _) as [hc'|] eqn:E5; [|discriminate]. destruct (health hc' HInit) as [post|] eqn:E6; [|discriminate].
    destruct (post_check h post) eqn:E7; [|discriminate]. cbn [guard] in H. apply some_inj in H. subst x. cbn [po_last po_book po_market po_q po_acc po_id po_flag po_cache].
    exists o', r. do 9 (split; [reflexivity || assumption|]). right. split; [reflexivity|]. exists hc, h, h2, p', hc', post. do 8 (split; [assumption || reflexivity|]). reflexivity.
Qed.

(** ** skipped tokens *)
Lemma covers_pair X A B : covers X A B -> NoDup (map ti_index B) -> forall t u, In t A -> In u B -> ti_index t = ti_index u ->
  exists w x y, x <= y /\ t = add_spot w x /\ u = add_spot w y.
Proof.
  induction 1 as [|w x y A B Hx C IH|w A B H1 H2 C IH]; intros N t u It Iu E; [destruct It| |]; cbn [map] in N; inversion N as [|? ? N1 N2]; subst.
  - cbn [add_spot ti_index] in N1. destruct It as [<-|It], Iu as [<-|Iu].
    + exists w, x, y. auto.
    + exfalso. apply N1. cbn [add_spot ti_index] in E. rewrite E. apply in_map, Iu.
    + exfalso. apply N1. cbn [add_spot ti_index] in E. rewrite <- E. apply (covers_incl _ _ _ C). apply in_map, It.
    + apply IH; assumption.
  - destruct Iu as [<-|Iu]; [exfalso; apply N1; rewrite <- E; apply (covers_incl _ _ _ C); apply in_map, It|]. apply IH; assumption.
Qed.
Lemma concave w x y d P ty : token_ok w -> ti_scaled_aw w <= ti_scaled_lw w -> ti_init_aw w <= ti_init_lw w -> ti_maint_aw w <= ti_maint_lw w -> d <= 0 -> x <= y ->
  let c t b := contribution t ty b in
  let a := add_spot w x in let b := add_spot w y in
  c a (token_balance P ty a + d) - c a (token_balance P ty a) <= c b (token_balance P ty b + d) - c b (token_balance P ty b) + 2.
Proof.
  intros T W1 W2 W3 D XY. pose proof (bump_contribution w x y d (ti_scaled_aw w, ti_scaled_lw w) ty P T (Z.le_refl _) W1 (Z.le_refl _) W2 W3 D XY) as G. cbv beta zeta in G |- *.
  assert (K : forall z, contribution (bump d (ti_scaled_aw w, ti_scaled_lw w) (add_spot w z)) ty (token_balance P ty (bump d (ti_scaled_aw w, ti_scaled_lw w) (add_spot w z))) = contribution (add_spot w z) ty (token_balance P ty (add_spot w z) + d)).
  { intros z. assert (E1 : token_balance P ty (bump d (ti_scaled_aw w, ti_scaled_lw w) (add_spot w z)) = token_balance P ty (add_spot w z) + d) by (unfold token_balance; cbn [bump set_spot ti_spot ti_index add_spot]; lia).
    rewrite E1. unfold contribution. destruct ty; reflexivity. }
  rewrite !K in G. exact G.
Qed.
(** a token's assets count for no more than its liabilities *)
Definition fair (t : tinfo) : Prop := ti_scaled_aw t <= ti_scaled_lw t /\ ti_init_aw t <= ti_init_lw t /\ ti_maint_aw t <= ti_maint_lw t.
Lemma pnl_true v mk mk' a p p' hs hs' hf hf' ty x x' y y' :
  Forall position_ok (pa_L a) -> Forall free_ok (pa_O a) -> Forall all_free (pa_O a) -> NoDup (map (fun q => ti_index (pin_info q)) (pa_L a)) ->
  (forall q, In q (pa_L a) -> ti_index (pin_info q) = pv_settle v -> fair (pin_info q)) ->
  build_cache true (pa_L a) (pa_O a) (perps_of v mk a (Some p)) = Some hs -> health hs ty = Some x ->
  build_cache true (pa_L a) (pa_O a) (perps_of v mk' a (Some p')) = Some hs' -> health hs' ty = Some x' ->
  build_cache false (map complete (pa_L a)) (pa_O a) (perps_of v mk a (Some p)) = Some hf -> health hf ty = Some y ->
  build_cache false (map complete (pa_L a)) (pa_O a) (perps_of v mk' a (Some p')) = Some hf' -> health hf' ty = Some y' ->
  y <= y' \/ x' - x <= y' - y + 2.
Proof.
  intros PO FO AF ND FA Bs Hs Bs' Hs' Bf Hf Bf' Hf'.
  destruct (skip_facts _ _ _ _ _ PO FO AF ND Bs Bf) as (CO & N1 & N2 & TO & R1 & R2 & Q1 & Q2).
  rewrite (build_perps true _ _ _ _ _ (settle_split v mk mk' a p p') Bs) in Bs'. apply some_inj in Bs'. subst hs'.
  rewrite (build_perps false _ _ _ _ _ (settle_split v mk mk' a p p') Bf) in Bf'. apply some_inj in Bf'. subst hf'.
  pose proof (fun t => build_cache_is _ _ _ _ _ t Bf) as BI.
  destruct hs as [Ts Ss Ps], hf as [Tf Sf Pf]. cbn [hc_tokens hc_serum hc_perps] in *. subst Ps Pf. unfold perps_of in *. cbn [app] in *.
  destruct (Z.le_gt_cases (hupnl (viewed v mk p) ty) (hupnl (viewed v mk' p') ty)) as [U|U].
  - left. refine (health_pnl_up _ _ _ _ _ _ _ _ _ _ R2 N2 TO Hf Hf' U). reflexivity.
  - right. destruct (health_pnl _ _ _ _ (viewed v mk p) (viewed v mk' p') _ _ _ eq_refl R1 N1 Hs Hs') as (i & t & Nt & It & E). destruct (health_pnl _ _ _ _ (viewed v mk p) (viewed v mk' p') _ _ _ eq_refl R2 N2 Hf Hf') as (j & u & Nu & Iu & E').
    cbv zeta in E, E'. destruct (covers_pair _ _ _ CO N2 t u (nth_error_In _ _ Nt) (nth_error_In _ _ Nu) ltac:(congruence)) as (w & z & z' & ZL & -> & ->).
    pose proof (nth_error_In _ _ Nu) as IU. rewrite Forall_forall in TO. pose proof (TO _ IU) as TW.
    destruct (BI _ IU) as (q0 & z0 & I0 & EQ). apply in_map_iff in I0 as (q & <- & Iq). cbn [complete pin_info] in EQ.
    assert (IX : ti_index (pin_info q) = pv_settle v). { apply (f_equal ti_index) in EQ. cbn [add_spot ti_index] in EQ, Iu. rewrite <- EQ. exact Iu. }
    destruct (FA q Iq IX) as (F1 & F2 & F3).
    assert (EW : ti_scaled_aw w = ti_scaled_aw (pin_info q) /\ ti_scaled_lw w = ti_scaled_lw (pin_info q) /\ ti_init_aw w = ti_init_aw (pin_info q) /\ ti_init_lw w = ti_init_lw (pin_info q) /\ ti_maint_aw w = ti_maint_aw (pin_info q) /\ ti_maint_lw w = ti_maint_lw (pin_info q)).
    { pose proof (f_equal ti_scaled_aw EQ). pose proof (f_equal ti_scaled_lw EQ). pose proof (f_equal ti_init_aw EQ). pose proof (f_equal ti_init_lw EQ). pose proof (f_equal ti_maint_aw EQ). pose proof (f_equal ti_maint_lw EQ).
      cbn [add_spot ti_scaled_aw ti_scaled_lw ti_init_aw ti_init_lw ti_maint_aw ti_maint_lw] in *. auto 10. }
    destruct EW as (W1 & W2 & W3 & W4 & W5 & W6).
    pose proof (concave w z z' (hupnl (viewed v mk' p') ty - hupnl (viewed v mk p) ty) (pa_P1 a ++ viewed v mk p :: pa_P2 a) ty TW ltac:(lia) ltac:(lia) ltac:(lia) ltac:(lia) ZL) as G. cbv beta zeta in G. lia.
Qed.

(** ** force-cancelling *)
Lemma build_tokens_all L T : build_tokens false L = Some T -> T = map pin_info L.
Proof.
  revert T. induction L as [|p L IH]; intros T; cbn [build_tokens andb map]; [intros E; apply some_inj in E; auto|]. destruct (pin_available p && pin_oracle_ok p); [|discriminate].
  destruct (build_tokens false L) as [T0|]; [|discriminate]. intros E. apply some_inj in E. subst T. rewrite <- (IH T0 eq_refl). reflexivity.
Qed.
Lemma built_facts L O P hc : Forall position_ok L -> Forall all_free O -> NoDup (map (fun p => ti_index (pin_info p)) L) -> build_cache false L O P = Some hc ->
  NoDup (map ti_index (hc_tokens hc)) /\ Forall token_ok (hc_tokens hc) /\ no_reserved hc /\ hc_perps hc = P.
Proof.
  intros HL HA N. unfold build_cache. destruct (build_tokens false L) as [T|] eqn:ET; [|discriminate]. apply build_tokens_all in ET. subst T. destruct (build_serum false O _) as [[T' R]|] eqn:E2; [|discriminate]. cbn [andb].
  intros E. apply some_inj in E. subst hc. cbn [hc_tokens hc_perps]. split; [rewrite (build_serum_idx _ _ _ _ _ E2), map_map; exact N|]. split.
  { eapply build_serum_ok; [exact E2|]. clear -HL. induction HL as [|p L [H _] _ IH]; constructor; assumption. }
  split; [exact (build_serum_free _ _ HA _ _ _ E2)|reflexivity].
Qed.
Lemma force_cancel_inv v bk mk a frozen force limit bk' acc' f did : force_cancel_ix v bk mk a frozen force limit = Some (bk', acc', f, did) ->
  exists hc hm he l f0, build_cache false (pa_L a) (pa_O a) (perps_of v mk a (a_pos (pa_acc a))) = Some hc /\ health hc HMaint = Some hm /\ health hc HLiqEnd = Some he /\
    check_liquidatable (pa_flag a) hm he = (l, f0) /\ did = frozen || match l with Liquidatable => true | _ => false end || force /\
    ((did = false /\ bk' = bk /\ acc' = pa_acc a /\ f = f0) \/
     (did = true /\ cancel_all bk (pa_acc a) (mk_index mk) (pa_pk a) limit None 0 (length (a_oo (pa_acc a))) = Some (bk', acc') /\
      exists p' hc' h', a_pos acc' = Some p' /\ recompute_perp hc p' mk (pv_settle v) (pv_par v) = Some hc' /\ health hc' HLiqEnd = Some h' /\ f = recover f0 h')).
Proof.
  unfold force_cancel_ix. destruct (build_cache _ _ _ _) as [hc|]; [|discriminate]. destruct (health hc HMaint) as [hm|] eqn:H1; [|discriminate]. destruct (health hc HLiqEnd) as [he|] eqn:H2; [|discriminate].
  destruct (check_liquidatable _ _ _) as [l f0] eqn:CL. destruct (frozen || _ || force) eqn:D.
  - destruct (cancel_all _ _ _ _ _ _ _ _) as [[bk1 acc1]|]; [|discriminate]. destruct (a_pos acc1) as [p'|] eqn:P'; [|discriminate]. destruct (recompute_perp _ _ _ _ _) as [hc'|] eqn:RC; [|discriminate].
    destruct (health hc' HLiqEnd) as [h'|] eqn:H3; [|discriminate]. intros E. apply some_inj in E. apply pair_equal_spec in E as [E <-]. apply pair_equal_spec in E as [E <-]. apply pair_equal_spec in E as [<- <-].
    exists hc, hm, he, l, f0. do 5 (split; [assumption || reflexivity || (rewrite D; reflexivity)|]). right. split; [reflexivity|]. split; [reflexivity|]. exists p', hc', h'. auto.
  - intros E. apply some_inj in E. apply pair_equal_spec in E as [E <-]. apply pair_equal_spec in E as [E <-]. apply pair_equal_spec in E as [<- <-].
    exists hc, hm, he, l, f0. do 5 (split; [assumption || reflexivity || (rewrite D; reflexivity)|]). left. auto.
Qed.
