(** Lemmas about spot liquidation. *)
From Coq Require Import List ZArith Lia Bool Arith.
From Verif Require Import OrderTree Keys PerpTypes Interest Bank BankFacts BankInv BankSystem Health HealthSpec HealthFacts HealthMore LiqState TokenLiq TokenLiqSpec Fixed.
Import ListNotations.
Open Scope Z_scope.

Lemma cdiv_inv a b c : cdiv a b = Some c -> c = fdiv a b /\ b <> 0.
Proof. unfold cdiv. destruct (Z.eqb_spec b 0); [discriminate|]. intros H. apply some_inj in H. auto. Qed.
Lemma fft_ge a l : lpar_ok a -> lpar_ok l ->
  fone <= fee_factor_liqor a l /\ fee_factor_liqor a l <= fee_factor_total a l.
Proof.
  intros (A1 & A2 & _) (L1 & L2 & _). unfold fee_factor_liqor, fee_factor_total. pose proof fone_pos as FP. split.
  - pose proof (fmul_bounds (fone + lp_fee l) (fone + lp_fee a)). set (m := fmul _ _) in *. clearbody m. nia.
  - etransitivity; [apply (fmul_mono_l _ (fone + lp_fee l + lp_platform l))|apply fmul_mono_r]; lia.
Qed.
Lemma fmul_ge_fone x f : 0 <= x -> fone <= f -> x <= fmul x f.
Proof. intros X F. pose proof (fmul_bounds x f). pose proof fone_pos. set (m := fmul x f) in *. clearbody m. nia. Qed.

(** the amounts *)
Lemma amounts_spec a l aop lop h mA mL L to from : lpar_ok a -> lpar_ok l -> 0 < aop -> 0 < lop -> 0 <= mA -> 0 <= mL ->
  liq_amounts a l aop lop lop h mA mL = Some (L, to, from) ->
  let fft := fee_factor_total a l in
  let lopa := fmul lop fft in
  let den := fmul lop (lp_init_lw l) - fmul lopa (lp_init_aw a) in
  0 <= L <= mL /\ L * lopa <= mA * aop /\ 0 <= to <= from /\
  (exists base, base = fdiv (fmul L lop) aop /\ to = fmul base (fee_factor_liqor a l) /\ from = fmul base fft) /\
  den <> 0 /\ (0 < den -> L * den <= Z.max (- h * fone) 0) /\ (den < 0 -> h <= 0 -> L = 0) /\
  (L = mL \/ mA * aop < (L + 1) * lopa + fone \/ (0 < den -> - h * fone < L * den + den)).
Proof.
  intros A Lo P1 P2 MA ML H fft lopa den. pose proof fone_pos as FP.
  destruct (fft_ge a l A Lo) as [F1 F2]. fold fft in F2. assert (LP : 0 < lopa) by (pose proof (fmul_ge_fone lop fft ltac:(lia) ltac:(lia)); unfold lopa; lia).
  unfold liq_amounts in H. fold fft in H. fold lopa in H. fold den in H.
  destruct (cdiv (- h) den) as [needed|] eqn:E1; [|discriminate]. apply cdiv_inv in E1 as [N1 N2].
  destruct (cdiv (fmul mA aop) lopa) as [possible|] eqn:E2; [|discriminate]. apply cdiv_inv in E2 as [Q1 _].
  set (l0 := Z.max (Z.min (Z.min needed possible) mL) 0) in *.
  destruct (cdiv (fmul l0 lop) aop) as [base|] eqn:E3; [|discriminate]. apply cdiv_inv in E3 as [Q2 _].
  apply some_inj in H. apply pair_equal_spec in H as [H H3]. apply pair_equal_spec in H as [H1 H2]. subst L.
  assert (M0 : 0 <= fmul mA aop) by (apply fmul_nonneg; lia).
  pose proof (BankFacts.fdiv_pos_bounds _ _ M0 LP) as [B0 [B1 B2]]. rewrite <- Q1 in B0, B1, B2. pose proof (fmul_bounds mA aop) as [B3 B4].
  assert (L0 : 0 <= l0) by (unfold l0; lia).
  assert (PO : l0 * lopa <= mA * aop).
  { destruct (Z.le_gt_cases (Z.min (Z.min needed possible) mL) 0); [unfold l0; rewrite Z.max_r by lia; nia|].
    assert (l0 <= possible) by (unfold l0; lia). nia. }
  assert (BB : 0 <= base) by (subst base; apply fdiv_nonneg; [apply fmul_nonneg; lia|lia]).
  split; [unfold l0; lia|]. split; [exact PO|].
  split; [subst to from; split; [apply fmul_nonneg; lia|apply fmul_mono_r; lia]|].
  split; [exists base; auto|]. split; [exact N2|].
  split; [|split].
  - intros D. destruct (Z.le_gt_cases (- h) 0) as [Hh|Hh].
    + assert (needed <= 0). { rewrite N1. unfold fdiv. rewrite <- (Z.opp_involutive (- h * fone)), Z.quot_opp_l by lia.
        pose proof (Z.quot_pos (- (- h * fone)) den ltac:(nia) D). lia. }
      replace l0 with 0 by (unfold l0; lia). lia.
    + pose proof (BankFacts.fdiv_pos_bounds (- h) den ltac:(lia) D) as [C0 [C1 C2]]. rewrite <- N1 in C0, C1, C2.
      assert (l0 <= needed) by (unfold l0; lia). nia.
  - intros D Hh. assert (needed <= 0).
    { rewrite N1. unfold fdiv. replace den with (- (- den)) by lia. rewrite Z.quot_opp_r by lia.
      pose proof (Z.quot_pos (- h * fone) (- den) ltac:(nia) ltac:(lia)). lia. }
    unfold l0; lia.
  - destruct (Z.le_gt_cases mL (Z.min needed possible)); [left; unfold l0; lia|].
    destruct (Z.le_gt_cases possible needed) as [C|C].
    + right. left. destruct (Z.le_gt_cases possible 0); [|replace l0 with possible by (unfold l0; lia); nia].
      replace l0 with possible by (unfold l0; lia). nia.
    + right. right. intros D. destruct (Z.le_gt_cases (- h) 0) as [Hh|Hh]; [nia|].
      pose proof (BankFacts.fdiv_pos_bounds (- h) den ltac:(lia) D) as [C0 [C1 C2]]. rewrite <- N1 in C0, C1, C2.
      replace l0 with needed by (unfold l0; lia). nia.
Qed.

(** bounds of what is paid *)
Lemma paid_upper L lop aop f : 0 <= L -> 0 < lop -> 0 < aop -> 0 <= f ->
  fmul (fdiv (fmul L lop) aop) f * aop * fone <= L * lop * f.
Proof.
  intros HL H1 H2 H3. pose proof fone_pos as FP. pose proof (fmul_bounds L lop) as [M1 M2].
  assert (M0 : 0 <= fmul L lop) by (apply fmul_nonneg; lia). pose proof (BankFacts.fdiv_pos_bounds _ _ M0 H2) as [D0 [D1 D2]].
  pose proof (fmul_bounds (fdiv (fmul L lop) aop) f) as [E1 E2].
  set (m := fmul L lop) in *. set (d := fdiv m aop) in *. set (r := fmul d f) in *. clearbody m d r. 
  assert (r * fone * aop <= d * f * aop) by nia. assert (d * aop * f <= m * fone * f) by nia. assert (m * fone * f <= L * lop * f) by nia. nia.
Qed.
Lemma paid_lower L lop aop f : 0 <= L -> 0 < lop -> 0 < aop -> 0 <= f ->
  L * lop * f - (fone + aop) * f - fone * aop <= fmul (fdiv (fmul L lop) aop) f * aop * fone.
Proof.
  intros HL H1 H2 H3. pose proof fone_pos as FP. pose proof (fmul_bounds L lop) as [M1 M2].
  assert (M0 : 0 <= fmul L lop) by (apply fmul_nonneg; lia). pose proof (BankFacts.fdiv_pos_bounds _ _ M0 H2) as [D0 [D1 D2]].
  pose proof (fmul_bounds (fdiv (fmul L lop) aop) f) as [E1 E2].
  set (m := fmul L lop) in *. set (d := fdiv m aop) in *. set (r := fmul d f) in *. clearbody m d r.
  assert ((r * fone + fone) * aop >= d * f * aop) by nia. assert (d * aop * f >= (m * fone - aop) * f) by nia.
  assert ((m * fone - aop) * f >= (L * lop - fone - aop) * f) by nia. nia.
Qed.

(** ** adjusting the cache *)
Lemma update_nth_map {A B} (g : A -> B) f L : forall i, (forall x, g (f x) = g x) -> map g (update_nth L i f) = map g L.
Proof. induction L as [|x L IH]; intros [|i] H; cbn; try reflexivity; [rewrite H|rewrite IH by exact H]; reflexivity. Qed.
Lemma update_nth_length {A} f (L : list A) : forall i, length (update_nth L i f) = length L.
Proof. induction L as [|x L IH]; intros [|i]; cbn; auto. Qed.
Lemma update_nth_nth {A} f (L : list A) : forall i j, nth_error (update_nth L i f) j = if (i =? j)%nat then option_map f (nth_error L j) else nth_error L j.
Proof.
  induction L as [|x L IH]; intros [|i] [|j]; cbn [update_nth nth_error Nat.eqb option_map]; try reflexivity.
  - destruct (i =? j)%nat; reflexivity.
  - apply IH.
Qed.
Lemma token_pos_update toks f idx : forall i, (forall t, ti_index (f t) = ti_index t) -> token_pos (update_nth toks i f) idx = token_pos toks idx.
Proof.
  induction toks as [|t toks IH]; intros [|i] H; cbn [update_nth token_pos]; try reflexivity; [rewrite H; reflexivity|].
  rewrite IH by exact H. reflexivity.
Qed.
Lemma spot_update' toks x sw : forall i, 
  map ti_spot (update_nth toks i (fun t => set_spot t (ti_spot t - (- x)) (fst sw) (snd sw))) = add_at (map ti_spot toks) i x.
Proof. induction toks as [|t toks IH]; intros [|i]; cbn [update_nth map add_at]; try reflexivity; [cbn [set_spot ti_spot]; f_equal; lia|rewrite IH; reflexivity]. Qed.
Lemma perp_balances_update toks toks' ty ign P : (forall idx, token_pos toks' idx = token_pos toks idx) -> forall acc,
  perp_balances toks' ty ign P acc = perp_balances toks ty ign P acc.
Proof. intros H. induction P as [|pi P IH]; intros acc; cbn [perp_balances]; [reflexivity|]. rewrite H. destruct (token_pos _ _); [apply IH|reflexivity]. Qed.
Lemma zadd_add_at A : forall B i x, length A = length B -> zadd A (add_at B i x) = add_at (zadd A B) i x.
Proof.
  unfold zadd. induction A as [|a A IH]; intros [|b B] [|i] x H; cbn [combine add_at map fst snd]; try reflexivity; try discriminate.
  - f_equal. lia.
  - f_equal. apply IH. cbn in H; lia.
Qed.
Lemma contributions_update toks sw x : forall i B,
  token_contributions (update_nth toks i (fun t => set_spot t (ti_spot t - (- x)) (fst sw) (snd sw))) HLiqEnd B = token_contributions toks HLiqEnd B.
Proof.
  unfold token_contributions. induction toks as [|t toks IH]; intros [|i] [|b B]; cbn [update_nth combine map fst snd]; try reflexivity.
  f_equal. apply IH.
Qed.
Lemma adjust_spec hc idx x sw hc' B : adjust_token_balance hc idx x sw = Some hc' -> balances hc HLiqEnd false = Some B ->
  exists i, token_pos (hc_tokens hc) idx = Some i /\
    balances hc' HLiqEnd false = Some (add_at B i x) /\
    (forall X, token_contributions (hc_tokens hc') HLiqEnd X = token_contributions (hc_tokens hc) HLiqEnd X) /\
    hc_serum hc' = hc_serum hc /\ hc_perps hc' = hc_perps hc /\ (forall k, token_pos (hc_tokens hc') k = token_pos (hc_tokens hc) k).
Proof.
  unfold adjust_token_balance. destruct (token_pos (hc_tokens hc) idx) as [i|] eqn:E; [|discriminate]. intros H HB. apply some_inj in H; subst hc'.
  cbn [hc_tokens hc_serum hc_perps]. exists i. split; [reflexivity|].
  assert (TP : forall k, token_pos (update_nth (hc_tokens hc) i (fun t => set_spot t (ti_spot t - - x) (fst sw) (snd sw))) k = token_pos (hc_tokens hc) k)
    by (intros k; apply token_pos_update; reflexivity).
  split; [|split; [intros X; apply contributions_update|split; [reflexivity|split; [reflexivity|exact TP]]]].
  unfold balances in *. cbn [hc_tokens hc_perps].
  rewrite (perp_balances_update (hc_tokens hc)) by exact TP. rewrite update_nth_length.
  destruct (perp_balances (hc_tokens hc) HLiqEnd false (hc_perps hc) _) as [L|] eqn:EP; [|discriminate].
  apply some_inj in HB; subst B. f_equal. rewrite spot_update'. apply zadd_add_at.
  apply perp_balances_spec in EP as (HL & _); [|apply zeros_length]. rewrite map_length. exact HL.
Qed.

(** no open orders: nothing reserved *)
Lemma phase1_no_reserved hc : shown_orders hc -> after_phase1 hc = true -> no_reserved hc.
Proof.
  intros S H. unfold after_phase1 in H. apply andb_prop in H as [H _]. apply negb_true_iff in H. unfold no_reserved, shown_orders in *.
  induction S as [|s L (oo & ask & bid & q & b & m & F1 & F2 & E) S IH]; [constructor|].
  cbn [existsb] in H. apply orb_false_iff in H as [H1 H2]. constructor; [|apply IH; exact H2].
  apply negb_false_iff in H1. unfold new_sinfo in E.
  destruct ((oo_base_total oo <? oo_base_free oo) || (oo_quote_total oo <? oo_quote_free oo)) eqn:G; [discriminate|].
  apply orb_false_iff in G as [G1 G2]. apply Z.ltb_ge in G1, G2. apply some_inj in E. subst s. cbn [si_zero si_res_base si_res_quote si_base_as_quote si_quote_as_base] in *.
  apply andb_prop in H1 as [H1 _]. apply andb_prop in H1 as [Z1 Z2]. apply Z.eqb_eq in Z1, Z2.
  replace (oo_base_total oo - oo_base_free oo) with 0 by lia. replace (oo_quote_total oo - oo_quote_free oo) with 0 by lia.
  unfold of_int. rewrite Z.mul_0_l, !fmul_0_l. auto.
Qed.

(** ** health after changing two balances *)
Lemma health_two hc hc1 hc2 ia il ta tl idxa idxl dA dL swa swl h h' B : no_reserved hc ->
  token_pos (hc_tokens hc) idxa = Some ia -> nth_error (hc_tokens hc) ia = Some ta ->
  token_pos (hc_tokens hc) idxl = Some il -> nth_error (hc_tokens hc) il = Some tl -> ia <> il ->
  balances hc HLiqEnd false = Some B -> Health.health hc HLiqEnd = Some h ->
  adjust_token_balance hc idxl dL swl = Some hc1 -> adjust_token_balance hc1 idxa dA swa = Some hc2 ->
  Health.health hc2 HLiqEnd = Some h' ->
  h' - h = contribution tl HLiqEnd (nth il B 0 + dL) - contribution tl HLiqEnd (nth il B 0) +
           (contribution ta HLiqEnd (nth ia B 0 + dA) - contribution ta HLiqEnd (nth ia B 0)).
Proof.
  intros N Pa Na Pl Nl Ne HB Hh A1 A2 Hh'.
  destruct (adjust_spec _ _ _ _ _ _ A1 HB) as (i & Pi & HB1 & C1 & S1 & Q1 & T1). rewrite Pl in Pi. apply some_inj in Pi. subst i.
  destruct (adjust_spec _ _ _ _ _ _ A2 HB1) as (i & Pi & HB2 & C2 & S2 & Q2 & T2). rewrite T1, Pa in Pi. apply some_inj in Pi. subst i.
  assert (N2 : no_reserved hc2) by (unfold no_reserved; rewrite S2, S1; exact N).
  destruct (health_no_reserved _ _ _ N Hh) as (B0 & E0 & ->). destruct (health_no_reserved _ _ _ N2 Hh') as (B2 & E2 & ->).
  rewrite HB in E0. apply some_inj in E0. subst B0. rewrite HB2 in E2. apply some_inj in E2. subst B2.
  rewrite C2, C1. pose proof (balances_spec _ _ _ _ HB) as (LB & _).
  destruct (token_pos_lt _ _ _ Pa) as [La _]. destruct (token_pos_lt _ _ _ Pl) as [Ll _].
  rewrite (contributions_add_at _ _ _ _ _ _ Na) by (rewrite add_at_length; lia).
  rewrite (contributions_add_at _ _ _ _ _ _ Nl) by lia.
  rewrite !add_at_nth by lia. destruct (Nat.eqb_spec il ia); [congruence|]. rewrite Z.add_0_r. lia.
Qed.

(** ** balances after bank operations *)
Lemma moved_pv b b' p p' ix : moved b b' p p' -> pv b' ix = pv b ix.
Proof. intros M. unfold pv. rewrite (mv_di _ _ _ _ M), (mv_bi _ _ _ _ M). reflexivity. Qed.
Lemma ix_round_bound b : index_ok b -> 2 * Z.max (b_di b) (b_bi b) + 2 * fone < ix_round b * fone.
Proof.
  intros [H1 H2]. unfold ix_round. pose proof fone_pos as FP. set (m := Z.max _ _) in *.
  pose proof (Z.div_mod m fone ltac:(lia)). pose proof (Z.mod_pos_bound m fone FP). nia.
Qed.
Definition kept (b b' : bank) (p p' : tpos) (paid : fx) : Prop :=
  - fone < pv b (t_ix p') - pv b (t_ix p) + (b_dust b' - b_dust b + (b_fees b' - b_fees b) - paid) * fone < Z.max (b_di b) (b_bi b).
Lemma ee_deposit b p L now b' p' act : index_ok b -> deposit_with_dusting b p L now = Some (b', p', act) -> L <= - native b p ->
  moved b b' p p' /\ kept b b' p p' L /\ L - 2 < native b' p' - native b p < L + ix_round b.
Proof.
  intros Hok H HL. unfold deposit_with_dusting in H. destruct (deposit_internal b p L true now) as [[[b1 p1] a1]|] eqn:E; [|discriminate].
  apply some_inj in H. apply pair_equal_spec in H as [H _]. apply pair_equal_spec in H as [<- <-].
  apply deposit_spec in E; [|exact Hok]. destruct E as (E0 & M & Ef & E1 & E2 & E3 & E4 & E5 & _).
  split; [exact M|]. split; [unfold kept; rewrite Ef; lia|].
  pose proof (native_bounds b1 p1) as [N1 N2]. rewrite (moved_pv _ _ _ _ _ M) in N1, N2. pose proof (native_bounds b p) as [N3 N4].
  pose proof fone_pos as FP. pose proof (ix_round_bound b Hok) as IR. destruct Hok as [O1 O2].
  assert (D : (b_dust b1 - b_dust b) * fone <= 0 /\ - Z.max (b_di b) (b_bi b) - fone < (b_dust b1 - b_dust b) * fone).
  { destruct a1; [rewrite E2 by reflexivity; lia|]. destruct (E3 eq_refl) as (_ & _ & _ & D1 & D2 & D3). nia. }
  set (d := b_dust b1 - b_dust b) in *. set (m := Z.max _ _) in *. clearbody d m. nia.
Qed.
Lemma ee_withdraw b p x now b' p' act : index_ok b -> 0 <= b_lof b -> withdraw_without_fee_with_dusting b p x now = Some (b', p', act) ->
  moved b b' p p' /\ kept b b' p p' (- x) /\ - x - fone - 2 < native b' p' - native b p < - x + ix_round b.
Proof.
  intros Hok Hl H. unfold withdraw_without_fee_with_dusting in H. destruct (withdraw_internal b p x false true now) as [[[b1 p1] r1]|] eqn:E; [|discriminate].
  apply some_inj in H. apply pair_equal_spec in H as [H _]. apply pair_equal_spec in H as [<- <-].
  apply withdraw_spec in E; [|exact Hok|exact Hl]. destruct E as (E0 & M & E1 & E2 & E3 & E4 & _ & E5 & E6 & E7 & E8 & _).
  cbn [andb] in E4. rewrite E4 in *.
  split; [exact M|]. split; [unfold kept; lia|].
  pose proof (native_bounds b1 p1) as [N1 N2]. rewrite (moved_pv _ _ _ _ _ M) in N1, N2. pose proof (native_bounds b p) as [N3 N4].
  pose proof fone_pos as FP. pose proof (ix_round_bound b Hok) as IR. destruct Hok as [O1 O2].
  assert (D : 0 <= b_dust b1 - b_dust b < fone).
  { destruct (w_active r1); [rewrite E5 by reflexivity; lia|]. destruct (E6 eq_refl) as (_ & _ & _ & D1 & D2 & D3). lia. }
  set (d := b_dust b1 - b_dust b) in *. set (m := Z.max _ _) in *. clearbody d m. nia.
Qed.
Lemma or_deposit b p x now b' p' act : index_ok b -> deposit b p x now = Some (b', p', act) -> moved b b' p p' /\ kept b b' p p' x.
Proof.
  intros Hok H. unfold deposit in H. apply deposit_spec in H; [|exact Hok]. destruct H as (E0 & M & Ef & E1 & E2 & E3 & E4 & E5 & _).
  split; [exact M|]. unfold kept; rewrite Ef; lia.
Qed.
Lemma or_withdraw b p x now b' p' r : index_ok b -> 0 <= b_lof b -> withdraw_with_fee b p x now = Some (b', p', r) -> moved b b' p p' /\ kept b b' p p' (- x).
Proof.
  intros Hok Hl H. unfold withdraw_with_fee in H. apply withdraw_spec in H; [|exact Hok|exact Hl].
  destruct H as (E0 & M & E1 & E2 & E3 & E4 & _ & E5 & E6 & E7 & E8 & _). split; [exact M|]. unfold kept. lia.
Qed.

(** ** the liqee's health *)
Lemma worth_le_l awp lwp x : awp <= lwp -> worth awp lwp x <= x * lwp.
Proof. unfold worth. intros H. destruct (Z.ltb_spec x 0); nia. Qed.
Lemma worth_le_a awp lwp x : awp <= lwp -> worth awp lwp x <= x * awp.
Proof. unfold worth. intros H. destruct (Z.ltb_spec x 0); nia. Qed.
Lemma worth_ge_l awp lwp x : 0 <= awp -> x * lwp - Z.max 0 x * lwp <= worth awp lwp x.
Proof. unfold worth. intros H. destruct (Z.ltb_spec x 0); [rewrite Z.max_l by lia|rewrite Z.max_r by lia]; nia. Qed.
Lemma worth_ge_a awp lwp x : 0 <= awp -> x * awp - Z.max 0 (- x) * lwp <= worth awp lwp x.
Proof. unfold worth. intros H. destruct (Z.ltb_spec x 0); [rewrite Z.max_r by lia|rewrite Z.max_l by lia]; nia. Qed.

Lemma change_bounds tl ta xl xa dL dA L from aop lop al iaw rl ra awl lwa :
  0 <= L -> 0 <= from -> 0 < aop -> 0 < lop -> 0 <= rl -> 0 <= ra ->
  liab_wp tl HLiqEnd = al -> asset_wp tl HLiqEnd = awl -> 0 <= awl <= al ->
  asset_wp ta HLiqEnd = iaw -> liab_wp ta HLiqEnd = lwa -> 0 <= iaw <= lwa ->
  xl < 0 -> L <= - xl -> 0 < xa -> from * aop <= xa * aop + L ->
  L - 2 < dL < L + rl -> - from - fone - 2 < dA < - from + ra ->
  let D := contribution tl HLiqEnd (xl + dL) - contribution tl HLiqEnd xl + (contribution ta HLiqEnd (xa + dA) - contribution ta HLiqEnd xa) in
  L * al - from * iaw - ((rl + 2) * al + (L / aop + 2 * fone + 4) * lwa + 2 * fone) <= D * fone /\
  D * fone <= L * al - from * iaw + (rl * al + ra * iaw + 2 * fone).
Proof.
  intros HL HF P1 P2 R1 R2 W1 W2 W3 W4 W5 W6 X1 X2 X3 X4 DL DA D. pose proof fone_pos as FP.
  pose proof (contribution_worth tl HLiqEnd (xl + dL)) as [A1 A2]. pose proof (contribution_worth tl HLiqEnd xl) as [A3 A4].
  pose proof (contribution_worth ta HLiqEnd (xa + dA)) as [A5 A6]. pose proof (contribution_worth ta HLiqEnd xa) as [A7 A8].
  rewrite W1, W2 in A1, A2, A3, A4. rewrite W4, W5 in A5, A6, A7, A8. subst D.
  set (c1 := contribution tl HLiqEnd (xl + dL)) in *. set (c2 := contribution tl HLiqEnd xl) in *.
  set (c3 := contribution ta HLiqEnd (xa + dA)) in *. set (c4 := contribution ta HLiqEnd xa) in *.
  pose proof (worth_le_l awl al (xl + dL) ltac:(lia)) as B1. pose proof (worth_ge_l awl al (xl + dL) ltac:(lia)) as B2.
  pose proof (worth_le_a iaw lwa (xa + dA) ltac:(lia)) as B3. pose proof (worth_ge_a iaw lwa (xa + dA) ltac:(lia)) as B4.
  assert (B5 : worth awl al xl = xl * al) by (unfold worth; destruct (Z.ltb_spec xl 0); [reflexivity|lia]).
  assert (B6 : worth iaw lwa xa = xa * iaw) by (unfold worth; destruct (Z.ltb_spec xa 0); [lia|reflexivity]).
  assert (Q : from - xa <= L / aop) by (apply Z.div_le_lower_bound; [lia|nia]).
  assert (QQ : 0 <= L / aop) by (apply Z.div_pos; lia).
  set (q := L / aop) in *.
  rewrite B5 in *. rewrite B6 in *.
  set (w1 := worth awl al (xl + dL)) in *. set (w3 := worth iaw lwa (xa + dA)) in *.
  clearbody c1 c2 c3 c4 w1 w3 q. clear W1 W2 W4 W5 B5 B6 ta tl.
  split.
  - assert (M1 : Z.max 0 (xl + dL) * al <= rl * al) by (apply Z.mul_le_mono_nonneg_r; lia).
    assert (M2 : Z.max 0 (- (xa + dA)) * lwa <= (q + fone + 2) * lwa) by (apply Z.mul_le_mono_nonneg_r; lia).
    assert (M3 : (L - 2) * al <= dL * al) by (apply Z.mul_le_mono_nonneg_r; lia).
    assert (M4 : (- from - fone - 2) * iaw <= dA * iaw) by (apply Z.mul_le_mono_nonneg_r; lia).
    assert (M5 : (fone + 2) * iaw <= (fone + 2) * lwa) by (apply Z.mul_le_mono_nonneg_l; lia).
    lia.
  - assert (M3 : dL * al <= (L + rl) * al) by (apply Z.mul_le_mono_nonneg_r; lia).
    assert (M4 : dA * iaw <= (- from + ra) * iaw) by (apply Z.mul_le_mono_nonneg_r; lia).
    lia.
Qed.

Lemma shows_info hc idx b p par price : NoDup (map ti_index (hc_tokens hc)) -> shows hc idx b p par price ->
  exists i t, nth_info hc idx = Some (i, t) /\ token_pos (hc_tokens hc) idx = Some i /\ nth_error (hc_tokens hc) i = Some t /\
    ti_init_aw t = lp_init_aw par /\ ti_init_lw t = lp_init_lw par /\ pr_oracle (ti_prices t) = price.
Proof.
  intros ND (t & T1 & T2 & T3 & T4 & T5 & T6). apply In_nth_error in T1 as [i Hi]. exists i, t.
  pose proof (token_pos_nth _ ND _ _ Hi) as P. rewrite T2 in P. unfold nth_info. rewrite P, Hi. auto 12.
Qed.

(** the two inequalities between what is paid and the health it costs *)
Lemma paid_health L from lop aop fft iaw : 0 <= L -> 0 <= from -> 0 < lop -> 0 < aop -> fone <= fft -> 0 <= iaw <= fone ->
  from * aop * fone <= L * lop * fft -> L * lop * fft - (fone + aop) * fft - fone * aop <= from * aop * fone ->
  let fl := fmul (fmul lop fft) iaw in
  from * fmul iaw aop <= L * fl + 2 * L /\
  L * fl - ((fone + aop) * fft / fone + aop + 1 + from) <= from * fmul iaw aop.
Proof.
  intros HL HF P1 P2 F1 W U V fl. pose proof fone_pos as FP.
  pose proof (fmul_bounds lop fft) as [A1 A2]. set (lopa := fmul lop fft) in *.
  pose proof (fmul_bounds lopa iaw) as [B1 B2]. fold fl in B1, B2. pose proof (fmul_bounds iaw aop) as [C1 C2]. set (awp := fmul iaw aop) in *.
  pose proof (Z.div_mod ((fone + aop) * fft) fone ltac:(lia)) as DM. pose proof (Z.mod_pos_bound ((fone + aop) * fft) fone FP) as DB.
  set (q := (fone + aop) * fft / fone) in *. set (r := ((fone + aop) * fft) mod fone) in *. clearbody lopa fl awp q r.
  assert (U1 : from * aop <= L * (lopa + 1)).
  { apply (Z.mul_le_mono_pos_r _ _ fone FP). assert (L * (lop * fft) <= L * (lopa * fone + fone)) by (apply Z.mul_le_mono_nonneg_l; lia). lia. }
  assert (V1 : L * lopa - (q + 1 + aop) <= from * aop).
  { apply (Z.mul_le_mono_pos_r _ _ fone FP). assert (L * (lopa * fone) <= L * (lop * fft)) by (apply Z.mul_le_mono_nonneg_l; lia). lia. }
  clear U V A1 A2. split; apply (Z.mul_le_mono_pos_r _ _ fone FP).
  - assert (from * (awp * fone) <= from * (iaw * aop)) by (apply Z.mul_le_mono_nonneg_l; lia).
    assert (from * aop * iaw <= L * (lopa + 1) * iaw) by (apply Z.mul_le_mono_nonneg_r; lia).
    assert (L * (lopa * iaw) <= L * (fl * fone + fone)) by (apply Z.mul_le_mono_nonneg_l; lia).
    assert (L * iaw <= L * fone) by (apply Z.mul_le_mono_nonneg_l; lia). lia.
  - assert (from * (iaw * aop) <= from * (awp * fone + fone)) by (apply Z.mul_le_mono_nonneg_l; lia).
    assert ((L * lopa - (q + 1 + aop)) * iaw <= from * aop * iaw) by (apply Z.mul_le_mono_nonneg_r; lia).
    assert (L * (fl * fone) <= L * (lopa * iaw)) by (apply Z.mul_le_mono_nonneg_l; lia).
    assert (0 <= q) by nia.
    assert ((q + 1 + aop) * iaw <= (q + 1 + aop) * fone) by (apply Z.mul_le_mono_nonneg_l; lia). lia.
Qed.

Record action_facts (e : lenv) (s s' : lstate) (h h' mx L to from : fx) : Prop := {
  af_asset : 0 < native (ls_abank s) (ls_ee_asset s);
  af_allow : lp_allow (le_a e) = true;
  af_liab : native (ls_lbank s) (ls_ee_liab s) < 0;
  af_health : Health.health (ls_cache s') HLiqEnd = Some h';
  af_flag : ls_flag s' = recover (ls_flag s) h';
  af_L : 0 <= L <= mx /\ L <= - native (ls_lbank s) (ls_ee_liab s);
  af_to : 0 <= to <= from;
  af_price_to : price_liqor e L - (fone + le_aop e) * (fone + lp_fee (le_l e)) * (fone + lp_fee (le_a e)) - fone * (fone * le_aop e) - (L * le_lop e) * fone <= to * le_aop e * (fone * fone) <= price_liqor e L;
  af_price_from : price_total e L - (fone + le_aop e) * (fone + lp_fee (le_l e) + lp_platform (le_l e)) * (fone + lp_fee (le_a e) + lp_platform (le_a e)) - fone * (fone * le_aop e) - (L * le_lop e) * fone <= from * le_aop e * (fone * fone) <= price_total e L;
  af_from : from * le_aop e <= native (ls_abank s) (ls_ee_asset s) * le_aop e + L;
  af_ee_liab : L - 2 < native (ls_lbank s') (ls_ee_liab s') - native (ls_lbank s) (ls_ee_liab s) < L + ix_round (ls_lbank s);
  af_ee_asset : - from - fone - 2 < native (ls_abank s') (ls_ee_asset s') - native (ls_abank s) (ls_ee_asset s) < - from + ix_round (ls_abank s);
  af_lower : L * gain e - loss_slack e s L <= (h' - h) * fone;
  af_upper : (h' - h) * fone <= L * gain e + gain_slack e s from;
  af_gain : gain e <> 0;
  af_need : 0 < gain e -> L * gain e <= Z.max (- h * fone) 0;
  af_neg : gain e < 0 -> h <= 0 -> L = 0;
  af_max : exists B ia il, balances (ls_cache s) HLiqEnd false = Some B /\ token_pos (hc_tokens (ls_cache s)) (le_ia e) = Some ia /\
     token_pos (hc_tokens (ls_cache s)) (le_il e) = Some il /\ L <= - nth il B 0 /\
     (L = mx \/ L = - native (ls_lbank s) (ls_ee_liab s) \/ L = - nth il B 0 \/
      Z.min (native (ls_abank s) (ls_ee_asset s)) (nth ia B 0) * le_aop e < (L + 1) * fmul (le_lop e) (fee_factor_total (le_a e) (le_l e)) + fone \/
      (0 < gain e -> - h * fone < L * gain e + gain e)) }.
Lemma price_bounds L lop aop x y to : 0 <= L -> 0 < lop -> 0 < aop -> fone <= x -> fone <= y ->
  to * aop * fone <= L * lop * fmul x y -> L * lop * fmul x y - (fone + aop) * fmul x y - fone * aop <= to * aop * fone ->
  L * lop * x * y - (fone + aop) * x * y - fone * (fone * aop) - (L * lop) * fone <= to * aop * (fone * fone) <= L * lop * x * y.
Proof.
  intros HL H1 H2 X Y U V. pose proof fone_pos as FP. pose proof (fmul_bounds x y) as [B1 B2]. set (m := fmul x y) in *. clearbody m.
  assert (K : 0 <= L * lop) by nia. set (k := L * lop) in *. clearbody k.
  assert (A1 : k * (m * fone) <= k * (x * y)) by (apply Z.mul_le_mono_nonneg_l; lia).
  assert (A2 : k * (x * y) <= k * (m * fone + fone)) by (apply Z.mul_le_mono_nonneg_l; lia).
  assert (A3 : (fone + aop) * (m * fone) <= (fone + aop) * (x * y)) by (apply Z.mul_le_mono_nonneg_l; lia).
  set (t := to * aop) in *. replace (to * aop * (fone * fone)) with (t * fone * fone) by (unfold t; ring). clearbody t.
  assert (A4 : t * fone * fone <= k * m * fone) by (apply Z.mul_le_mono_nonneg_r; lia).
  assert (A5 : (k * m - (fone + aop) * m - fone * aop) * fone <= t * fone * fone) by (apply Z.mul_le_mono_nonneg_r; lia).
  split; lia.
Qed.

Lemma action_spec e s s' h mx L to from : lenv_ok e -> lstate_ok e s -> le_ia e <> le_il e -> after_phase1 (ls_cache s) = true ->
  Health.health (ls_cache s) HLiqEnd = Some h -> liquidation_action e s h mx = Some (s', (L, to, from)) ->
  exists h', action_facts e s s' h h' mx L to from.
Proof.
  intros (Ka & Kl & P1 & P2) (ND & SO & Sa & Sl & I1 & I2 & I3 & I4 & F1 & F2) NE AP Hh H. pose proof fone_pos as FP.
  pose proof (phase1_no_reserved _ SO AP) as NR.
  destruct (shows_info _ _ _ _ _ _ ND Sa) as (ia & ta & Ia & Pa & Na & Wa1 & Wa2 & Wa3).
  destruct (shows_info _ _ _ _ _ _ ND Sl) as (il & tl & Il & Pl & Nl & Wl1 & Wl2 & Wl3).
  assert (NI : ia <> il).
  { intros ->. destruct (token_pos_lt _ _ _ Pa) as [_ (x & X1 & X2)]. destruct (token_pos_lt _ _ _ Pl) as [_ (y & Y1 & Y2)]. congruence. }
  unfold liquidation_action in H. cbn zeta in H. rewrite Ia, Il in H.
  destruct (Z.ltb_spec 0 (native (ls_abank s) (ls_ee_asset s))) as [An|]; cbn [guard] in H; [|discriminate].
  destruct (lp_allow (le_a e)) eqn:Al; cbn [guard] in H; [|discriminate].
  destruct (Z.ltb_spec (native (ls_lbank s) (ls_ee_liab s)) 0) as [Ln|]; cbn [guard] in H; [|discriminate].
  destruct (balances (ls_cache s) HLiqEnd false) as [B|] eqn:EB; [|discriminate].
  set (mL := Z.max (Z.min (Z.min mx (- native (ls_lbank s) (ls_ee_liab s))) (- nth il B 0)) 0) in *.
  set (mA := Z.max (Z.min (native (ls_abank s) (ls_ee_asset s)) (nth ia B 0)) 0) in *.
  destruct (Z.ltb_spec 0 mL) as [GL|]; cbn [guard] in H; [|discriminate].
  destruct (Z.ltb_spec 0 mA) as [GA|]; cbn [guard] in H; [|discriminate].
  cbn [asset_price liab_price] in H. rewrite Wa3, Z.eqb_refl in H. cbn [guard] in H. rewrite Wl3 in H.
  destruct (liq_amounts _ _ _ _ _ _ _ _) as [[[L0 to0] from0]|] eqn:EA; [|discriminate].
  set (ab0 := set_totals (ls_abank s) (b_dep (ls_abank s)) (b_bor (ls_abank s)) (b_dust (ls_abank s)) (b_fees (ls_abank s) + (from0 - to0))) in *.
  destruct (deposit_with_dusting _ _ _ _) as [[[lb1 pel] w1]|] eqn:E1; [|discriminate].
  destruct (withdraw_with_fee _ _ _ _) as [[[lb2 pol] w2]|] eqn:E2; [|discriminate].
  destruct (deposit ab0 _ _ _) as [[[ab1 poa] w3]|] eqn:E3; [|discriminate].
  destruct (withdraw_without_fee_with_dusting _ _ _ _) as [[[ab2 pea] w4]|] eqn:E4; [|discriminate].
  destruct (adjust_token_balance (ls_cache s) _ _ _) as [hc1|] eqn:E5; [|discriminate].
  destruct (adjust_token_balance hc1 _ _ _) as [hc2|] eqn:E6; [|discriminate].
  destruct (Health.health hc2 HLiqEnd) as [h'|] eqn:E7; [|discriminate].
  apply some_inj in H. apply pair_equal_spec in H as [H Ha]. subst s'. apply pair_equal_spec in Ha as [Ha Ha3]. apply pair_equal_spec in Ha as [Ha1 Ha2].
  subst L0 to0 from0.
  pose proof (amounts_spec _ _ _ _ _ _ _ _ _ _ Ka Kl P1 P2 (Z.lt_le_incl _ _ GA) (Z.lt_le_incl _ _ GL) EA) as AS. cbn zeta in AS.
  destruct AS as (S1 & S2 & S3 & (base & S4 & S5 & S6) & S7 & S8 & S9 & S10). revert S10.
  assert (OKl : index_ok (ls_lbank s)) by (split; assumption).
  assert (X2 : L <= - native (ls_lbank s) (ls_ee_liab s)) by lia.
  destruct (ee_deposit _ _ _ _ _ _ _ OKl E1 X2) as (M1 & _ & D1).
  assert (OKl1 : index_ok lb1) by (split; [rewrite (mv_di _ _ _ _ M1)|rewrite (mv_bi _ _ _ _ M1)]; assumption).
  destruct (or_withdraw _ _ _ _ _ _ _ OKl1 ltac:(rewrite (mv_lof _ _ _ _ M1); assumption) E2) as (M2 & _).
  assert (OKa : index_ok ab0) by (split; assumption).
  destruct (or_deposit _ _ _ _ _ _ _ OKa E3) as (M3 & _).
  assert (OKa1 : index_ok ab1) by (split; [rewrite (mv_di _ _ _ _ M3)|rewrite (mv_bi _ _ _ _ M3)]; assumption).
  destruct (ee_withdraw _ _ _ _ _ _ _ OKa1 ltac:(rewrite (mv_lof _ _ _ _ M3); assumption) E4) as (M4 & _ & D4).
  assert (Q1 : native lb2 pel = native lb1 pel) by (unfold native; rewrite (mv_di _ _ _ _ M2), (mv_bi _ _ _ _ M2); reflexivity).
  assert (Q2 : native ab1 (ls_ee_asset s) = native (ls_abank s) (ls_ee_asset s)) by (unfold native; rewrite (mv_di _ _ _ _ M3), (mv_bi _ _ _ _ M3); reflexivity).
  assert (Q3 : ix_round ab1 = ix_round (ls_abank s)) by (unfold ix_round; rewrite (mv_di _ _ _ _ M3), (mv_bi _ _ _ _ M3); reflexivity).
  rewrite Q2, Q3 in D4. rewrite <- Q1 in D1.
  pose proof (fft_ge _ _ Ka Kl) as [FF1 FF2]. set (fft := fee_factor_total (le_a e) (le_l e)) in *.
  pose proof (paid_upper L (le_lop e) (le_aop e) fft ltac:(lia) P2 P1 ltac:(lia)) as U1. pose proof (paid_lower L (le_lop e) (le_aop e) fft ltac:(lia) P2 P1 ltac:(lia)) as U2.
  pose proof (paid_upper L (le_lop e) (le_aop e) (fee_factor_liqor (le_a e) (le_l e)) ltac:(lia) P2 P1 ltac:(lia)) as V1.
  pose proof (paid_lower L (le_lop e) (le_aop e) (fee_factor_liqor (le_a e) (le_l e)) ltac:(lia) P2 P1 ltac:(lia)) as V2.
  rewrite <- S4, <- S6 in U1, U2. rewrite <- S4, <- S5 in V1, V2.
  assert (SA : L * fmul (le_lop e) fft <= Z.min (native (ls_abank s) (ls_ee_asset s)) (nth ia B 0) * le_aop e) by (unfold mA in S2; rewrite Z.max_l in S2 by lia; exact S2).
  assert (FR : from * le_aop e <= Z.min (native (ls_abank s) (ls_ee_asset s)) (nth ia B 0) * le_aop e + L).
  { apply (Z.mul_le_mono_pos_r _ _ fone FP). pose proof (fmul_bounds (le_lop e) fft) as [B1 B2].
    assert (L * (le_lop e * fft) <= L * (fmul (le_lop e) fft * fone + fone)) by (apply Z.mul_le_mono_nonneg_l; lia).
    set (lopa := fmul (le_lop e) fft) in *. set (mm := Z.min (native (ls_abank s) (ls_ee_asset s)) (nth ia B 0)) in *. clearbody lopa mm.
    assert (L * lopa * fone <= mm * le_aop e * fone) by (apply Z.mul_le_mono_nonneg_r; [lia|exact SA]). clear - U1 H H0. lia. }
  assert (FR2 : from * le_aop e <= nth ia B 0 * le_aop e + L).
  { assert (Z.min (native (ls_abank s) (ls_ee_asset s)) (nth ia B 0) * le_aop e <= nth ia B 0 * le_aop e) by (apply Z.mul_le_mono_nonneg_r; lia). lia. }
  pose proof Ka as (Ka1 & Ka2 & Ka3 & Ka4). pose proof Kl as (Kl1 & Kl2 & Kl3 & Kl4).
  assert (Z1 : 0 <= L) by apply S1. assert (Z2 : 0 <= from) by (clear - S3; lia). assert (Z3 : fone <= fft) by (clear - FF1 FF2; lia).
  pose proof (paid_health L from (le_lop e) (le_aop e) fft (lp_init_aw (le_a e)) Z1 Z2 P2 P1 Z3 Ka3 U1 U2) as [Y1 Y2].
  pose proof (health_two _ _ _ _ _ _ _ _ _ _ _ _ _ _ _ _ NR Pa Na Pl Nl NI EB Hh E5 E6 E7) as HT.
  assert (WX1 : liab_wp tl HLiqEnd = liab_price_w e) by (unfold liab_wp, liab_price_w; cbn [liab_weight liab_price]; rewrite Wl2, Wl3; reflexivity).
  assert (WX2 : asset_wp ta HLiqEnd = asset_price_w e) by (unfold asset_wp, asset_price_w; cbn [asset_weight asset_price]; rewrite Wa1, Wa3; reflexivity).
  assert (WX3 : liab_wp ta HLiqEnd = asset_debt_w e) by (unfold liab_wp, asset_debt_w; cbn [liab_weight liab_price]; rewrite Wa2, Wa3; reflexivity).
  assert (WX4 : asset_wp tl HLiqEnd = fmul (lp_init_aw (le_l e)) (le_lop e)) by (unfold asset_wp; cbn [asset_weight asset_price]; rewrite Wl1, Wl3; reflexivity).
  assert (IRl : 0 <= ix_round (ls_lbank s)). { unfold ix_round. pose proof (Z.div_pos (Z.max (b_di (ls_lbank s)) (b_bi (ls_lbank s))) fone ltac:(lia) FP). lia. }
  assert (IRa : 0 <= ix_round (ls_abank s)). { unfold ix_round. pose proof (Z.div_pos (Z.max (b_di (ls_abank s)) (b_bi (ls_abank s))) fone ltac:(lia) FP). lia. }
  assert (WY1 : 0 <= fmul (lp_init_aw (le_l e)) (le_lop e) <= liab_price_w e) by (split; [apply fmul_nonneg; lia|unfold liab_price_w; apply fmul_mono_l; lia]).
  assert (WY2 : 0 <= asset_price_w e <= asset_debt_w e) by (unfold asset_price_w, asset_debt_w; split; [apply fmul_nonneg; lia|apply fmul_mono_l; lia]).
  assert (XL1 : nth il B 0 < 0) by lia. assert (XL2 : L <= - nth il B 0) by lia. assert (XA1 : 0 < nth ia B 0) by lia.
  pose proof (change_bounds tl ta (nth il B 0) (nth ia B 0) _ _ L from (le_aop e) (le_lop e) _ _ _ _ _ _ Z1 Z2 P1 P2 IRl IRa
     WX1 WX4 WY1 WX2 WX3 WY2 XL1 XL2 XA1 FR2 D1 D4) as [CB1 CB2]. cbn zeta in CB1, CB2. rewrite <- HT in CB1, CB2.
  assert (GE : gain e = liab_price_w e - fmul (fmul (le_lop e) fft) (lp_init_aw (le_a e))) by (unfold gain, liab_price_w; fold fft; rewrite (fmul_comm (le_lop e) (lp_init_lw (le_l e))); reflexivity).
  fold (asset_price_w e) in Y1, Y2.
  intros S10.
  assert (MX : L = mx \/ L = - native (ls_lbank s) (ls_ee_liab s) \/ L = - nth il B 0 \/
      Z.min (native (ls_abank s) (ls_ee_asset s)) (nth ia B 0) * le_aop e < (L + 1) * fmul (le_lop e) (fee_factor_total (le_a e) (le_l e)) + fone \/
      (0 < gain e -> - h * fone < L * gain e + gain e)).
  { destruct S10 as [S10|[S10|S10]].
    - clear - S10 GL. unfold mL in *. lia.
    - do 3 right. left. unfold mA in S10. rewrite Z.max_l in S10 by (clear - GA; unfold mA in GA; lia). exact S10.
    - do 4 right. exact S10. }
  assert (MB : L <= - nth il B 0) by (clear - S1 GL; unfold mL in *; lia).
  assert (MM : exists B ia il, balances (ls_cache s) HLiqEnd false = Some B /\ token_pos (hc_tokens (ls_cache s)) (le_ia e) = Some ia /\
     token_pos (hc_tokens (ls_cache s)) (le_il e) = Some il /\ L <= - nth il B 0 /\
     (L = mx \/ L = - native (ls_lbank s) (ls_ee_liab s) \/ L = - nth il B 0 \/
      Z.min (native (ls_abank s) (ls_ee_asset s)) (nth ia B 0) * le_aop e < (L + 1) * fmul (le_lop e) (fee_factor_total (le_a e) (le_l e)) + fone \/
      (0 < gain e -> - h * fone < L * gain e + gain e))) by (exists B, ia, il; auto).
  clear MX MB S10.
  exists h'. constructor; cbn [ls_cache ls_flag ls_abank ls_lbank ls_ee_asset ls_ee_liab ls_or_asset ls_or_liab]; try assumption.
  - reflexivity.
  - split; [lia|exact X2].
  - unfold price_liqor. unfold fee_factor_liqor in V1, V2. apply price_bounds; try assumption; lia.
  - unfold price_total. unfold fft, fee_factor_total in U1, U2. apply price_bounds; try assumption; lia.
  - clear - FR P1. assert (Z.min (native (ls_abank s) (ls_ee_asset s)) (nth ia B 0) * le_aop e <= native (ls_abank s) (ls_ee_asset s) * le_aop e) by (apply Z.mul_le_mono_nonneg_r; lia). lia.
  - unfold loss_slack. rewrite GE. set (flx := fmul (fmul (le_lop e) fft) (lp_init_aw (le_a e))) in *. clearbody flx.
    clear - CB1 Y1. rewrite Z.mul_sub_distr_l. lia.
  - unfold gain_slack. fold fft. rewrite GE. set (flx := fmul (fmul (le_lop e) fft) (lp_init_aw (le_a e))) in *. clearbody flx.
    clear - CB2 Y2 FP. rewrite Z.mul_sub_distr_l. lia.
Qed.

(** ** the money *)
Lemma claim_pv b p : claim b p = pv b (t_ix p).
Proof. unfold claim, pv. destruct (Z.ltb_spec (t_ix p) 0); destruct (Z.ltb_spec 0 (t_ix p)); try reflexivity; try lia. replace (t_ix p) with 0 by lia. ring. Qed.
Lemma moved_claim b b' p p' q : moved b b' p p' -> claim b' q = claim b q.
Proof. intros M. unfold claim. rewrite (mv_di _ _ _ _ M), (mv_bi _ _ _ _ M). reflexivity. Qed.
Lemma native_claim b p : native b p * fone <= claim b p < native b p * fone + fone.
Proof. rewrite claim_pv. apply native_bounds. Qed.
Lemma two_moves b b1 b2 p p' q q' x y : moved b b1 p p' -> kept b b1 p p' x -> moved b1 b2 q q' -> kept b1 b2 q q' y ->
  bank_moved b b2 p p' q q' /\
  - 2 * fone < two_claims b2 p' q' - two_claims b p q - (x + y) * fone < 2 * Z.max (b_di b) (b_bi b).
Proof.
  intros M1 K1 M2 K2. split.
  - unfold bank_moved. rewrite (mv_di _ _ _ _ M2), (mv_bi _ _ _ _ M2), (mv_fw _ _ _ _ M2), (mv_use _ _ _ _ M2).
    pose proof (mv_dep _ _ _ _ M1). pose proof (mv_dep _ _ _ _ M2). pose proof (mv_bor _ _ _ _ M1). pose proof (mv_bor _ _ _ _ M2).
    split; [lia|]. split; [lia|]. split; [apply M1|]. split; [reflexivity|]. split; [apply M1|]. split; apply M1.
  - unfold kept in *. unfold two_claims. rewrite (moved_claim _ _ _ _ _ M2), !(moved_claim _ _ _ _ _ M1), (moved_claim _ _ _ _ _ M2), (moved_claim _ _ _ _ _ M1), !claim_pv.
    rewrite !(moved_pv _ _ _ _ _ M1), (mv_di _ _ _ _ M1), (mv_bi _ _ _ _ M1) in K2. lia.
Qed.
Lemma action_money e s s' h mx L to from : lstate_ok e s -> liquidation_action e s h mx = Some (s', (L, to, from)) ->
  let A := ls_abank s in let A' := ls_abank s' in let Lb := ls_lbank s in let Lb' := ls_lbank s' in
  (bank_moved Lb Lb' (ls_ee_liab s) (ls_ee_liab s') (ls_or_liab s) (ls_or_liab s') /\
   - 2 * fone < two_claims Lb' (ls_ee_liab s') (ls_or_liab s') - two_claims Lb (ls_ee_liab s) (ls_or_liab s) < 2 * Z.max (b_di Lb) (b_bi Lb)) /\
  (bank_moved A A' (ls_ee_asset s) (ls_ee_asset s') (ls_or_asset s) (ls_or_asset s') /\
   - 2 * fone < two_claims A' (ls_ee_asset s') (ls_or_asset s') - two_claims A (ls_ee_asset s) (ls_or_asset s) < 2 * Z.max (b_di A) (b_bi A)) /\
  b_fees A' = b_fees A + (from - to).
Proof.
  intros (_ & _ & _ & _ & I1 & I2 & I3 & I4 & F1 & F2) H. pose proof fone_pos as FP.
  unfold liquidation_action in H. cbn zeta in H.
  destruct (guard (0 <? _)); [|discriminate]. destruct (guard (lp_allow _)); [|discriminate]. destruct (guard (_ <? 0)); [|discriminate].
  destruct (nth_info _ (le_il e)) as [[il tl]|]; [|discriminate]. destruct (nth_info _ (le_ia e)) as [[ia ta]|]; [|discriminate].
  destruct (balances _ _ _) as [B|]; [|discriminate]. destruct (guard (0 <? Z.max (Z.min (Z.min _ _) _) 0)); [|discriminate]. destruct (guard (0 <? _)); [|discriminate]. destruct (guard (_ =? _)); [|discriminate].
  destruct (liq_amounts _ _ _ _ _ _ _ _) as [[[L0 to0] from0]|]; [|discriminate].
  set (ab0 := set_totals (ls_abank s) (b_dep (ls_abank s)) (b_bor (ls_abank s)) (b_dust (ls_abank s)) (b_fees (ls_abank s) + (from0 - to0))) in *.
  destruct (deposit_with_dusting _ _ _ _) as [[[lb1 pel] w1]|] eqn:E1; [|discriminate].
  destruct (withdraw_with_fee _ _ _ _) as [[[lb2 pol] w2]|] eqn:E2; [|discriminate].
  destruct (deposit ab0 _ _ _) as [[[ab1 poa] w3]|] eqn:E3; [|discriminate].
  destruct (withdraw_without_fee_with_dusting _ _ _ _) as [[[ab2 pea] w4]|] eqn:E4; [|discriminate].
  destruct (adjust_token_balance (ls_cache s) _ _ _) as [hc1|]; [|discriminate].
  destruct (adjust_token_balance hc1 _ _ _) as [hc2|]; [|discriminate].
  destruct (Health.health hc2 HLiqEnd) as [h'|]; [|discriminate].
  apply some_inj in H. apply pair_equal_spec in H as [H Ha]. subst s'. apply pair_equal_spec in Ha as [Ha Ha3]. apply pair_equal_spec in Ha as [Ha1 Ha2].
  subst L0 to0 from0. cbn [ls_cache ls_flag ls_abank ls_lbank ls_ee_asset ls_ee_liab ls_or_asset ls_or_liab].
  assert (OKl : index_ok (ls_lbank s)) by (split; assumption).
  assert (D : moved (ls_lbank s) lb1 (ls_ee_liab s) pel /\ kept (ls_lbank s) lb1 (ls_ee_liab s) pel L).
  { unfold deposit_with_dusting in E1. destruct (deposit_internal _ _ _ true _) as [[[b1 p1] a1]|] eqn:E; [|discriminate].
    apply some_inj in E1. apply pair_equal_spec in E1 as [E1 _]. apply pair_equal_spec in E1 as [<- <-].
    apply deposit_spec in E; [|exact OKl]. destruct E as (E0 & M & Ef & _ & _ & _ & E4' & E5' & _). split; [exact M|]. unfold kept; rewrite Ef; lia. }
  destruct D as [M1 K1].
  assert (OKl1 : index_ok lb1) by (split; [rewrite (mv_di _ _ _ _ M1)|rewrite (mv_bi _ _ _ _ M1)]; assumption).
  assert (LF : 0 <= b_lof lb1) by (rewrite (mv_lof _ _ _ _ M1); exact F1).
  destruct (or_withdraw _ _ _ _ _ _ _ OKl1 LF E2) as (M2 & K2).
  assert (OKa : index_ok ab0) by (split; assumption).
  destruct (or_deposit _ _ _ _ _ _ _ OKa E3) as (M3 & K3).
  assert (OKa1 : index_ok ab1) by (split; [rewrite (mv_di _ _ _ _ M3)|rewrite (mv_bi _ _ _ _ M3)]; assumption).
  assert (LF1 : 0 <= b_lof ab1) by (rewrite (mv_lof _ _ _ _ M3); exact F2).
  destruct (ee_withdraw _ _ _ _ _ _ _ OKa1 LF1 E4) as (M4 & K4 & _).
  destruct (two_moves _ _ _ _ _ _ _ _ _ M1 K1 M2 K2) as [T1 T2].
  destruct (two_moves _ _ _ _ _ _ _ _ _ M3 K3 M4 K4) as [T3 T4].
  split; [split; [exact T1|rewrite Z.add_opp_diag_r in T2; lia]|]. split.
  - split.
    + unfold bank_moved in *. unfold ab0 in T3. cbn [set_totals b_dep b_bor b_di b_bi b_fw] in T3. intuition lia.
    + replace (two_claims (ls_abank s) (ls_ee_asset s) (ls_or_asset s)) with (two_claims ab0 (ls_or_asset s) (ls_ee_asset s) - (from - to) * fone).
      * replace (two_claims ab2 pea poa) with (two_claims ab2 poa pea) by (unfold two_claims; ring).
        change (b_di ab0) with (b_di (ls_abank s)) in T4. change (b_bi ab0) with (b_bi (ls_abank s)) in T4. clear - T4. lia.
      * unfold two_claims, claim, ab0. cbn [set_totals b_di b_bi b_dust b_fees]. ring.
  - assert (b_fees ab2 = b_fees ab1).
    { unfold withdraw_without_fee_with_dusting in E4. destruct (withdraw_internal _ _ _ false true _) as [[[b1 p1] r1]|] eqn:E; [|discriminate].
      apply some_inj in E4. apply pair_equal_spec in E4 as [E4 _]. apply pair_equal_spec in E4 as [<- _].
      apply withdraw_spec in E; [|assumption..]. destruct E as (_ & _ & _ & _ & E6 & E7 & _). rewrite E6, E7. cbn [andb]. lia. }
    assert (b_fees ab1 = b_fees ab0).
    { unfold deposit in E3. apply deposit_spec in E3; [|exact OKa]. destruct E3 as (_ & _ & E6 & _). exact E6. }
    rewrite H, H0. reflexivity.
Qed.

(** the liqor's side *)
Lemma action_liqor e s s' h mx L to from : lstate_ok e s -> liquidation_action e s h mx = Some (s', (L, to, from)) ->
  to - fone - 2 < native (ls_abank s') (ls_or_asset s') - native (ls_abank s) (ls_or_asset s) /\
  - (L + fmul (b_lof (ls_lbank s)) (Z.max 0 (L - Z.max (native (ls_lbank s) (ls_or_liab s)) 0))) - fone - 2 <
    native (ls_lbank s') (ls_or_liab s') - native (ls_lbank s) (ls_or_liab s).
Proof.
  intros (_ & _ & _ & _ & I1 & I2 & I3 & I4 & F1 & F2) H. pose proof fone_pos as FP.
  unfold liquidation_action in H. cbn zeta in H.
  destruct (guard (0 <? _)); [|discriminate]. destruct (guard (lp_allow _)); [|discriminate]. destruct (guard (_ <? 0)); [|discriminate].
  destruct (nth_info _ (le_il e)) as [[il tl]|]; [|discriminate]. destruct (nth_info _ (le_ia e)) as [[ia ta]|]; [|discriminate].
  destruct (balances _ _ _) as [B|]; [|discriminate]. destruct (guard (0 <? Z.max (Z.min (Z.min _ _) _) 0)); [|discriminate]. destruct (guard (0 <? _)); [|discriminate]. destruct (guard (_ =? _)); [|discriminate].
  destruct (liq_amounts _ _ _ _ _ _ _ _) as [[[L0 to0] from0]|]; [|discriminate].
  set (ab0 := set_totals (ls_abank s) (b_dep (ls_abank s)) (b_bor (ls_abank s)) (b_dust (ls_abank s)) (b_fees (ls_abank s) + (from0 - to0))) in *.
  destruct (deposit_with_dusting _ _ _ _) as [[[lb1 pel] w1]|] eqn:E1; [|discriminate].
  destruct (withdraw_with_fee _ _ _ _) as [[[lb2 pol] w2]|] eqn:E2; [|discriminate].
  destruct (deposit ab0 _ _ _) as [[[ab1 poa] w3]|] eqn:E3; [|discriminate].
  destruct (withdraw_without_fee_with_dusting _ _ _ _) as [[[ab2 pea] w4]|] eqn:E4; [|discriminate].
  destruct (adjust_token_balance (ls_cache s) _ _ _) as [hc1|]; [|discriminate].
  destruct (adjust_token_balance hc1 _ _ _) as [hc2|]; [|discriminate].
  destruct (Health.health hc2 HLiqEnd) as [h'|]; [|discriminate].
  apply some_inj in H. apply pair_equal_spec in H as [H Ha]. subst s'. apply pair_equal_spec in Ha as [Ha Ha3]. apply pair_equal_spec in Ha as [Ha1 Ha2].
  subst L0 to0 from0. cbn [ls_cache ls_flag ls_abank ls_lbank ls_ee_asset ls_ee_liab ls_or_asset ls_or_liab].
  assert (OKl : index_ok (ls_lbank s)) by (split; assumption).
  assert (M1 : moved (ls_lbank s) lb1 (ls_ee_liab s) pel).
  { unfold deposit_with_dusting in E1. destruct (deposit_internal _ _ _ true _) as [[[b1 p1] a1]|] eqn:E; [|discriminate].
    apply some_inj in E1. apply pair_equal_spec in E1 as [E1 _]. apply pair_equal_spec in E1 as [<- <-].
    apply deposit_spec in E; [|exact OKl]. apply E. }
  assert (OKl1 : index_ok lb1) by (split; [rewrite (mv_di _ _ _ _ M1)|rewrite (mv_bi _ _ _ _ M1)]; assumption).
  assert (LF : 0 <= b_lof lb1) by (rewrite (mv_lof _ _ _ _ M1); exact F1).
  assert (OKa : index_ok ab0) by (split; assumption).
  destruct (or_deposit _ _ _ _ _ _ _ OKa E3) as (M3 & _).
  assert (OKa1 : index_ok ab1) by (split; [rewrite (mv_di _ _ _ _ M3)|rewrite (mv_bi _ _ _ _ M3)]; assumption).
  assert (LF1 : 0 <= b_lof ab1) by (rewrite (mv_lof _ _ _ _ M3); exact F2).
  destruct (ee_withdraw _ _ _ _ _ _ _ OKa1 LF1 E4) as (M4 & _).
  split.
  - unfold deposit in E3. apply deposit_spec in E3; [|exact OKa]. destruct E3 as (_ & _ & Ef & _ & D1 & D2 & D3 & _).
    assert (D : b_dust ab1 - b_dust ab0 < fone). { destruct w3; [rewrite D1 by reflexivity; lia|]. destruct (D2 eq_refl) as (_ & _ & _ & X1 & X2 & _). lia. }
    pose proof (native_bounds ab2 poa) as [N1 N2]. rewrite (moved_pv _ _ _ _ _ M4), (moved_pv _ _ _ _ _ M3) in N1, N2.
    pose proof (native_bounds ab0 (ls_or_asset s)) as [N3 N4]. change (native ab0 (ls_or_asset s)) with (native (ls_abank s) (ls_or_asset s)) in N3, N4.
    set (d := b_dust ab1 - b_dust ab0) in *. clearbody d. nia.
  - unfold withdraw_with_fee in E2. apply withdraw_spec in E2; [|assumption..]. destruct E2 as (E0 & M2 & _ & W0 & _ & W1 & _ & D1 & D2 & D3 & _).
    assert (D : b_dust lb2 - b_dust lb1 < fone). { destruct (w_active w2); [rewrite D1 by reflexivity; lia|]. destruct (D2 eq_refl) as (_ & _ & _ & X1 & X2 & _). lia. }
    pose proof (native_bounds lb2 pol) as [N1 N2]. rewrite (moved_pv _ _ _ _ _ M2) in N1, N2.
    pose proof (native_bounds lb1 (ls_or_liab s)) as [N3 N4].
    assert (NN : native lb1 (ls_or_liab s) = native (ls_lbank s) (ls_or_liab s)) by (unfold native; rewrite (mv_di _ _ _ _ M1), (mv_bi _ _ _ _ M1); reflexivity).
    assert (WF : w_fee w2 = fmul (b_lof (ls_lbank s)) (Z.max 0 (L - Z.max (native (ls_lbank s) (ls_or_liab s)) 0))).
    { rewrite W1. unfold to_borrow. rewrite NN, (mv_lof _ _ _ _ M1). cbn [andb]. set (q := L - Z.max _ 0) in *. destruct (Z.ltb_spec 0 q); [rewrite Z.max_r by lia; reflexivity|rewrite Z.max_l by lia; rewrite fmul_0_r; reflexivity]. }
    rewrite <- WF, <- NN. set (d := b_dust lb2 - b_dust lb1) in *. set (fe := w_fee w2) in *. clearbody d fe. clear - D D3 N1 N2 N3 N4 FP. nia.
Qed.
