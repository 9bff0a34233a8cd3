(** Lemmas for PropHealth: amounts to health zero, perp positions, sums per token. *)
From Coq Require Import List ZArith Lia Bool Arith.
From Verif Require Import Fixed PerpTypes Health HealthSpec HealthFacts HealthDiv HealthOrders.
Import ListNotations.
Open Scope Z_scope.

Lemma taken_spec h s awp lwp t : 0 <= awp -> spot_amount_taken h s awp lwp = Some t -> 0 < h ->
  0 <= t /\ - fone < h * fone - (worth awp lwp s - worth awp lwp (s - t)) < Z.max fone (Z.max awp lwp).
Proof.
  intros Ha H Hh. unfold spot_amount_taken in H. destruct (Z.leb_spec h 0); [lia|]. pose proof fone_pos as FP.
  assert (W : forall x, worth awp lwp x = x * (if x <? 0 then lwp else awp)) by reflexivity.
  assert (R : forall taken h1, 0 <= taken -> (s <= taken) -> spot_amount_taken h s awp lwp = spot_amount_taken h s awp lwp ->
      (if 0 <? h1 then if 0 <? lwp then Some (taken + fdiv h1 lwp) else None else Some taken) = Some t ->
      - fone < h * fone - (worth awp lwp s - worth awp lwp (s - taken)) - h1 * fone <= 0 ->
      (h1 <= 0 -> s - taken <= 0) -> s - taken <= 0 ->
      (h1 <= 0 -> 0 <= h1) ->
      0 <= t /\ - fone < h * fone - (worth awp lwp s - worth awp lwp (s - t)) < Z.max fone (Z.max awp lwp)).
  { intros taken h1 T0 T1 _ E I _ N P. destruct (Z.ltb_spec 0 h1) as [P1|P1].
    - destruct (Z.ltb_spec 0 lwp) as [P2|P2]; [|discriminate]. apply some_inj in E; subst t. pose proof (fdiv_nonneg h1 lwp ltac:(lia) P2) as Q0. pose proof (fdiv_pos_bounds h1 lwp ltac:(lia) P2) as Q1.
      set (q := fdiv h1 lwp) in *. clearbody q. split; [lia|]. rewrite (W (s - taken)) in I. rewrite (W (s - (taken + q))). revert I. generalize (worth awp lwp s). intros w I.
      destruct (Z.ltb_spec (s - (taken + q)) 0), (Z.ltb_spec (s - taken) 0); nia.
    - apply some_inj in E; subst t. split; [lia|]. specialize (P P1). assert (h1 = 0) by lia. subst h1. revert I. generalize (worth awp lwp s - worth awp lwp (s - taken)). intros; lia. }
  destruct (Z.ltb_spec 0 s) as [S|S].
  - pose proof (fmul_bounds s awp) as M.
    destruct ((0 <? awp) && (fdiv h awp <=? s)) eqn:B.
    + apply andb_true_iff in B as [B1 B2]. apply Z.ltb_lt in B1. apply Z.leb_le in B2. apply some_inj in H; subst t.
      pose proof (fdiv_nonneg h awp ltac:(lia) B1) as Q0. pose proof (fdiv_pos_bounds h awp ltac:(lia) B1) as Q1. set (q := fdiv h awp) in *. clearbody q.
      split; [lia|]. rewrite !W. destruct (Z.ltb_spec s 0); [lia|]. destruct (Z.ltb_spec (s - q) 0); [lia|]. nia.
    + apply (R s (h - fmul s awp)); [lia|lia|reflexivity|exact H| |lia|lia|].
      * rewrite (W s), (W (s - s)), Z.sub_diag. destruct (Z.ltb_spec s 0); [lia|]. destruct (0 <? 0); nia.
      * intros _. apply andb_false_iff in B as [B|B].
        -- apply Z.ltb_ge in B. assert (awp = 0) by lia. subst awp. rewrite fmul_0_r. lia.
        -- apply Z.leb_gt in B. destruct (Z.eq_dec awp 0) as [->|]; [rewrite fmul_0_r; lia|].
           pose proof (fdiv_pos_bounds h awp ltac:(lia) ltac:(lia)) as Q1. nia.
  - apply (R 0 h); [lia|lia|reflexivity|exact H| |lia|lia|lia].
    rewrite Z.sub_0_r, Z.sub_diag. lia.
Qed.
Lemma worth_dual awp lwp x : worth lwp awp (- x) = - worth awp lwp x.
Proof. unfold worth. destruct (Z.ltb_spec (- x) 0), (Z.ltb_spec x 0); try nia. assert (x = 0) by lia. subst; reflexivity. Qed.
Lemma given_spec h s awp lwp t : 0 <= lwp -> spot_amount_given h s awp lwp = Some t -> h < 0 ->
  0 <= t /\ - fone < (worth awp lwp s - worth awp lwp (s + t)) - h * fone < Z.max fone (Z.max awp lwp).
Proof.
  intros Hl H Hh. unfold spot_amount_given in H. apply taken_spec in H; [|exact Hl|lia]. rewrite Z.max_comm with (n := awp). 
  rewrite worth_dual in H. replace (- s - t) with (- (s + t)) in H by lia. rewrite worth_dual in H. lia.
Qed.

(** ** lowering one balance *)
Lemma contributions_add_at toks ty : forall B i t r, nth_error toks i = Some t -> (i < length B)%nat ->
  sum (token_contributions toks ty (add_at B i r)) = sum (token_contributions toks ty B) + contribution t ty (nth i B 0 + r) - contribution t ty (nth i B 0).
Proof.
  induction toks as [|u toks IH]; intros [|x B] [|i] t r Hn Hl; try discriminate; try (cbn in Hl; lia); unfold token_contributions in *.
  - cbn [nth_error] in Hn. apply some_inj in Hn; subst u. cbn [add_at nth combine map]. rewrite !sum_cons. cbn [fst snd]. lia.
  - cbn [nth_error] in Hn. cbn [add_at nth combine map]. rewrite !sum_cons. cbn [fst snd]. rewrite (IH B i t r Hn) by (cbn in Hl; lia). lia.
Qed.
Lemma contribution_worth t ty x : contribution t ty x * fone <= worth (asset_wp t ty) (liab_wp t ty) x < contribution t ty x * fone + fone.
Proof. unfold contribution, worth. apply fmul_bounds. Qed.
Lemma effect_anti t ty x x' m r : token_ok t -> haircut t -> 0 <= r -> x' <= x ->
  health_effect t ty x m r * (fone * fone) <= health_effect t ty x' m r * (fone * fone) + 2 * (liab_price (ti_prices t) ty + fone) * fone.
Proof.
  intros T H R X. pose proof (effect_upper t ty x m r T H R) as U. pose proof (effect_lower t ty x' m r T H R) as L.
  pose proof (exact_concave t ty r (x' + m) (x + m) T H R) as C. lia.
Qed.
Lemma serum_anti toks ty B B' M O : toks_ok toks -> Forall serum_ok O -> (forall j, nth j B' 0 <= nth j B 0) ->
  forall acc M0 R, reservations toks ty O acc = Some (M0, R) ->
  sum (map (fun sr => serum_contribution toks ty B M (fst sr) (snd sr)) (combine O R)) * (fone * fone) <=
  sum (map (fun sr => serum_contribution toks ty B' M (fst sr) (snd sr)) (combine O R)) * (fone * fone) + fone * sum (map (market_slack toks ty) O).
Proof.
  intros T HO HB. induction HO as [|si O Hs _ IH]; intros acc M0 R Hr; cbn [reservations] in Hr.
  - apply some_inj in Hr. injection Hr as <- <-. cbn [combine map]. change (sum []) with 0. lia.
  - destruct (nth_error toks (si_quote si)) as [q|] eqn:Eq; [|discriminate]. destruct (nth_error toks (si_base si)) as [b|] eqn:Eb; [|discriminate].
    destruct (reserved_as_base si ty q b) as [rb|] eqn:E1; [|discriminate]. destruct (reserved_as_quote si ty q b) as [rq|] eqn:E2; [|discriminate].
    destruct (reservations toks ty O _) as [[M' R']|] eqn:E; [|discriminate]. apply some_inj in Hr. injection Hr as <- <-.
    destruct (toks_ok_nth _ _ _ T Eq) as (Q1 & Q2 & Q3). destruct (toks_ok_nth _ _ _ T Eb) as (B1 & B2 & B3).
    assert (Rb : 0 <= rb) by (apply (reserved_nonneg si ty q b rb); auto). assert (Rq : 0 <= rq) by (apply (reserved_nonneg si ty q b rq); auto).
    specialize (IH _ _ _ E). cbn [combine map]. rewrite !sum_cons. cbn [fst snd].
    assert (X : serum_contribution toks ty B M si (rb, rq) * (fone * fone) <= serum_contribution toks ty B' M si (rb, rq) * (fone * fone) + fone * market_slack toks ty si).
    { pose proof (effect_anti b ty _ _ (nth (si_base si) M 0) rb B1 B2 Rb (HB (si_base si))) as EB. pose proof (effect_anti q ty _ _ (nth (si_quote si) M 0) rq Q1 Q2 Rq (HB (si_quote si))) as EQ.
      pose proof (liab_price_le (ti_prices q) ty ty (stricter_refl ty) ltac:(apply Q1)) as PQ. pose proof (liab_price_le (ti_prices b) ty ty (stricter_refl ty) ltac:(apply B1)) as PB.
      unfold serum_contribution, market_slack. rewrite Eb, Eq. pose proof fone_pos as FP. set (pq := liab_price (ti_prices q) ty) in *. set (pb := liab_price (ti_prices b) ty) in *.
      assert (S0 : 0 <= fone * (2 * (pq + pb + fone))) by nia. assert (S1 : 2 * (pb + fone) * fone <= fone * (2 * (pq + pb + fone))) by nia. assert (S2 : 2 * (pq + fone) * fone <= fone * (2 * (pq + pb + fone))) by nia.
      destruct (_ || _); [lia|]. revert EB EQ. generalize (health_effect b ty (nth (si_base si) B 0) (nth (si_base si) M 0) rb) (health_effect q ty (nth (si_quote si) B 0) (nth (si_quote si) M 0) rq)
        (health_effect b ty (nth (si_base si) B' 0) (nth (si_base si) M 0) rb) (health_effect q ty (nth (si_quote si) B' 0) (nth (si_quote si) M 0) rq). intros e1 e2 e3 e4 EB EQ.
      destruct (Z.min_spec e1 e2) as [[? ->]|[? ->]], (Z.min_spec e3 e4) as [[? ->]|[? ->]]; nia. }
    lia.
Qed.
Lemma health_sum_lowered hc ty B i t x h h' : toks_ok (hc_tokens hc) -> Forall serum_ok (hc_serum hc) -> length B = length (hc_tokens hc) ->
  nth_error (hc_tokens hc) i = Some t -> 0 <= x ->
  health_sum hc ty B = Some h -> health_sum hc ty (add_at B i (- x)) = Some h' ->
  (h + contribution t ty (nth i B 0 - x) - contribution t ty (nth i B 0)) * (fone * fone) <= h' * (fone * fone) + fone * sum (map (market_slack (hc_tokens hc) ty) (hc_serum hc)).
Proof.
  intros T HS HL Ht Hx. unfold health_sum, serum_contributions. destruct (reservations _ _ _ _) as [[M R]|] eqn:E; [|discriminate]. intros H H'. apply some_inj in H, H'. subst h h'.
  assert (Li : (i < length B)%nat) by (rewrite HL; apply nth_error_Some; congruence).
  rewrite (contributions_add_at _ _ _ _ t) by assumption. pose proof (serum_anti (hc_tokens hc) ty B (add_at B i (- x)) M _ T HS) as SA.
  assert (Y : forall j, nth j (add_at B i (- x)) 0 <= nth j B 0) by (intros j; rewrite add_at_nth by exact Li; destruct (_ =? _)%nat; lia).
  specialize (SA Y _ _ _ E). replace (nth i B 0 + - x) with (nth i B 0 - x) by lia. lia.
Qed.

(** ** perp positions *)
Lemma case_value pi ty n q : execution_case pi ty n q * fone <=
  fone * (- n * pi_lot pi * q) + (pi_base pi + n) * pi_lot pi *
    (if (pi_base pi + n) * pi_lot pi <? 0 then (match ty with HMaint => pi_maint_lw pi | _ => pi_init_lw pi end) * liab_price (pi_prices pi) ty
     else (match ty with HMaint => pi_maint_aw pi | _ => pi_init_aw pi end) * asset_price (pi_prices pi) ty) < execution_case pi ty n q * fone + fone.
Proof.
  unfold execution_case. rewrite order_quote, fmul_int_l. set (net := (pi_base pi + n) * pi_lot pi). 
  assert (X : forall w p, fmul (net * w) p * fone <= net * (w * p) < fmul (net * w) p * fone + fone) by (intros w p; pose proof (fmul_bounds (net * w) p); lia).
  destruct ty, (net <? 0); match goal with |- context [fmul (net * ?w) ?p] => specialize (X w p) end; lia.
Qed.
Lemma uhupnl_fills pi ty b a : perp_haircut pi -> 0 <= b <= pi_bids pi -> 0 <= a <= pi_asks pi ->
  uhupnl pi ty * fone <= fills_value pi ty b a.
Proof.
  intros (W1 & W2 & W3 & W4 & L0 & B0 & A0 & P) Hb Ha. unfold uhupnl, fills_value.
  pose proof (case_value pi ty (pi_bids pi) (liab_price (pi_prices pi) ty)) as C1.
  pose proof (case_value pi ty (- pi_asks pi) (asset_price (pi_prices pi) ty)) as C2.
  revert C1 C2. generalize (execution_case pi ty (pi_bids pi) (liab_price (pi_prices pi) ty)) (execution_case pi ty (- pi_asks pi) (asset_price (pi_prices pi) ty)). intros e1 e2 C1 C2.
  assert (PP : 0 <= asset_price (pi_prices pi) ty <= liab_price (pi_prices pi) ty) by (destruct P; destruct ty; cbn [asset_price liab_price]; lia).
  set (lp := liab_price (pi_prices pi) ty) in *. set (ap := asset_price (pi_prices pi) ty) in *. clearbody lp ap. clear P.
  set (lw := match ty with HMaint => pi_maint_lw pi | _ => pi_init_lw pi end) in *. set (aw := match ty with HMaint => pi_maint_aw pi | _ => pi_init_aw pi end) in *.
  assert (WW : 0 <= aw <= fone /\ fone <= lw) by (unfold aw, lw; destruct ty; lia). clearbody lw aw. clear W1 W2 W3 W4.
  set (lot := pi_lot pi) in *. set (base := pi_base pi) in *. set (bids := pi_bids pi) in *. set (asks := pi_asks pi) in *. set (quote := pi_quote pi). clearbody lot base bids asks quote.
  pose proof fone_pos as FP. assert (K1 : 0 <= aw * ap <= fone * ap) by nia. assert (K2 : fone * lp <= lw * lp) by nia. assert (K3 : fone * ap <= fone * lp) by nia.
  set (U := aw * ap) in *. set (V := lw * lp) in *. clearbody U V.
  destruct (Z.ltb_spec ((base + b - a) * lot) 0) as [N|N].
  - (* short at the end: compare with all asks filled *)
    assert (NB : base + b - a < 0) by (clear - N L0; nia). destruct (Z.ltb_spec ((base + - asks) * lot) 0) as [|NX]; [|exfalso; assert ((base + - asks) * lot <= (base + b - a) * lot) by (apply Z.mul_le_mono_nonneg_r; lia); lia].
    assert (e2 * fone <= fone * (a * lot * ap - b * lot * lp) + (base + b - a) * lot * V).
    { assert (X1 : 0 <= (asks - a) * lot) by nia. assert (X2 : 0 <= b * lot) by nia. set (u := (asks - a) * lot) in *. set (v := b * lot) in *.
      assert (Y1 : (base + - asks) * lot = (base + b - a) * lot - u - v) by (unfold u, v; ring). assert (Y2 : - - asks * lot * ap = a * lot * ap + u * ap) by (unfold u; ring).
      rewrite Y1, Y2 in C2. clearbody u v. assert (u * (fone * ap) <= u * V) by (apply Z.mul_le_mono_nonneg_l; lia). assert (v * (fone * lp) <= v * V) by (apply Z.mul_le_mono_nonneg_l; lia). nia. }
    assert (Z.min e1 e2 <= e2) by lia. nia.
  - assert (D : (base + bids) * lot = (base + b - a) * lot + (bids - b) * lot + a * lot) by ring.
    assert (X1 : 0 <= (bids - b) * lot) by nia. assert (X2 : 0 <= a * lot) by nia.
    destruct (Z.ltb_spec ((base + bids) * lot) 0); [lia|].
    assert (e1 * fone <= fone * (a * lot * ap - b * lot * lp) + (base + b - a) * lot * U).
    { assert (Y2 : - bids * lot * lp = - ((bids - b) * lot * lp) - b * lot * lp) by ring. rewrite D, Y2 in C1. set (u := (bids - b) * lot) in *. set (v := a * lot) in *. clearbody u v.
      assert (u * U <= u * (fone * lp)) by (apply Z.mul_le_mono_nonneg_l; lia). assert (v * U <= v * (fone * ap)) by (apply Z.mul_le_mono_nonneg_l; lia). nia. }
    assert (Z.min e1 e2 <= e1) by lia. nia.
Qed.
Lemma uhupnl_attained pi ty : uhupnl pi ty * fone + fone > Z.min (fills_value pi ty (pi_bids pi) 0) (fills_value pi ty 0 (pi_asks pi)).
Proof.
  unfold uhupnl, fills_value. pose proof (case_value pi ty (pi_bids pi) (liab_price (pi_prices pi) ty)) as C1.
  pose proof (case_value pi ty (- pi_asks pi) (asset_price (pi_prices pi) ty)) as C2.
  replace (pi_base pi + pi_bids pi - 0) with (pi_base pi + pi_bids pi) by lia. replace (pi_base pi + 0 - pi_asks pi) with (pi_base pi + - pi_asks pi) by lia.
  revert C1 C2. generalize (execution_case pi ty (pi_bids pi) (liab_price (pi_prices pi) ty)) (execution_case pi ty (- pi_asks pi) (asset_price (pi_prices pi) ty)). intros e1 e2 C1 C2.
  match type of C1 with _ <= fone * ?x + ?y < _ => set (y1 := y) in *; set (x1 := x) in * end.
  match type of C2 with _ <= fone * ?x + ?y < _ => set (y2 := y) in *; set (x2 := x) in * end.
  destruct (Z.min_spec e1 e2) as [[? ->]|[? ->]].
  - match goal with |- _ > Z.min ?a ?b => assert (Z.min a b <= a) by lia end. unfold x1 in *. nia.
  - match goal with |- _ > Z.min ?a ?b => assert (Z.min a b <= b) by lia end. unfold x2 in *. nia.
Qed.

(** ** balances per token *)
Definition token_balance (P : list pinfo) (ty : htype) (t : tinfo) : fx :=
  ti_spot t + sum (map (fun pi => if pi_settle pi =? ti_index t then hupnl pi ty else 0) P).
Lemma token_pos_nth toks : NoDup (map ti_index toks) -> forall j t, nth_error toks j = Some t -> token_pos toks (ti_index t) = Some j.
Proof.
  induction toks as [|u toks IH]; intros N j t H; [destruct j; discriminate|]. cbn [map] in N. inversion N as [|? ? N1 N2]; subst. cbn [token_pos].
  destruct j as [|j]; cbn [nth_error] in H.
  - apply some_inj in H; subst. rewrite Z.eqb_refl. reflexivity.
  - destruct (Z.eqb_spec (ti_index u) (ti_index t)) as [E|E].
    + exfalso. apply N1. rewrite E. apply in_map. eapply nth_error_In; eassumption.
    + rewrite (IH N2 _ _ H). reflexivity.
Qed.
Lemma balances_map hc ty B : NoDup (map ti_index (hc_tokens hc)) -> balances hc ty false = Some B ->
  B = map (token_balance (hc_perps hc) ty) (hc_tokens hc).
Proof.
  intros N H. apply balances_spec in H as (L & H & F). apply (nth_ext _ _ 0 0); [rewrite map_length; exact L|]. intros j Hj. rewrite L in Hj. rewrite H.
  destruct (nth_error (hc_tokens hc) j) as [t|] eqn:E; [|apply nth_error_None in E; lia].
  assert (X1 : nth j (map ti_spot (hc_tokens hc)) 0 = ti_spot t) by (apply nth_error_nth; rewrite nth_error_map, E; reflexivity).
  assert (X2 : nth j (map (token_balance (hc_perps hc) ty) (hc_tokens hc)) 0 = token_balance (hc_perps hc) ty t) by (apply nth_error_nth; rewrite nth_error_map, E; reflexivity).
  rewrite X1, X2. unfold token_balance, perp_part. f_equal. f_equal. apply map_ext_in. intros pi Hpi. rewrite Forall_forall in F. specialize (F _ Hpi).
  destruct (token_pos (hc_tokens hc) (pi_settle pi)) as [i|] eqn:Ei; [|congruence]. cbn [negb orb]. rewrite andb_true_r.
  destruct (Z.eqb_spec (pi_settle pi) (ti_index t)) as [Es|Es].
  - rewrite Es, (token_pos_nth _ N _ _ E) in Ei. apply some_inj in Ei; subst i. rewrite Nat.eqb_refl. reflexivity.
  - destruct (Nat.eqb_spec i j) as [->|]; [|reflexivity]. apply token_pos_lt in Ei as (_ & u & Eu & Hu). congruence.
Qed.
Lemma contributions_map toks ty (f : tinfo -> fx) : token_contributions toks ty (map f toks) = map (fun t => contribution t ty (f t)) toks.
Proof. induction toks as [|t toks IH]; [reflexivity|]. unfold token_contributions in *. cbn [map combine fst snd]. rewrite IH. reflexivity. Qed.

(** ** assets and liabilities *)
Lemma split_add_diff al v : fst (split_add al v) - snd (split_add al v) = fst al - snd al + v.
Proof. unfold split_add. destruct (0 <? v); cbn [fst snd]; lia. Qed.
Lemma split_add_nonneg al v : 0 <= fst al -> 0 <= snd al -> 0 <= fst (split_add al v) /\ 0 <= snd (split_add al v).
Proof. unfold split_add. destruct (Z.ltb_spec 0 v); cbn [fst snd]; lia. Qed.
Lemma token_split_spec hc ty t : let al := token_split hc ty t in
  0 <= fst al /\ 0 <= snd al /\ fst al - snd al = token_balance (hc_perps hc) ty t.
Proof.
  cbv zeta. unfold token_split, token_balance.
  assert (G : forall P al, 0 <= fst al -> 0 <= snd al ->
    let r := fold_left (fun al pi => if pi_settle pi =? ti_index t then split_add al (hupnl pi ty) else al) P al in
    0 <= fst r /\ 0 <= snd r /\ fst r - snd r = fst al - snd al + sum (map (fun pi => if pi_settle pi =? ti_index t then hupnl pi ty else 0) P)).
  { induction P as [|pi P IH]; intros al H1 H2; cbn [fold_left map]; [change (sum []) with 0; cbv zeta; lia|]. rewrite sum_cons.
    destruct (pi_settle pi =? ti_index t).
    - destruct (split_add_nonneg al (hupnl pi ty) H1 H2) as [G1 G2]. specialize (IH _ G1 G2). cbv zeta in IH |- *. rewrite split_add_diff in IH. lia.
    - specialize (IH _ H1 H2). cbv zeta in IH |- *. lia. }
  assert (Z1 : 0 <= fst (0, 0) /\ 0 <= snd (0, 0)) by (cbn; lia). destruct (split_add_nonneg (0, 0) (ti_spot t) (proj1 Z1) (proj2 Z1)) as [S1 S2].
  specialize (G (hc_perps hc) _ S1 S2). cbv zeta in G. rewrite split_add_diff in G. cbn [fst snd] in G. lia.
Qed.
Lemma fmul_sub x y p : fmul (x - y) p <= fmul x p - fmul y p <= fmul (x - y) p + 1.
Proof. pose proof (fmul_bounds x p). pose proof (fmul_bounds y p). pose proof (fmul_bounds (x - y) p). pose proof fone_pos. nia. Qed.
Lemma token_assets_liabs_spec hc ty sa tot t : token_ok t -> 0 <= fst tot -> 0 <= snd tot ->
  let r := token_assets_liabs hc ty sa tot t in
  0 <= fst r /\ 0 <= snd r /\
  contribution t ty (token_balance (hc_perps hc) ty t) <= (fst r - snd r) - (fst tot - snd tot) <= contribution t ty (token_balance (hc_perps hc) ty t) + 1.
Proof.
  intros T H1 H2. unfold token_assets_liabs. pose proof (token_split_spec hc ty t) as S. cbv zeta in S. destruct (token_split hc ty t) as [a l]. cbn [fst snd] in S. destruct S as (S1 & S2 & <-).
  pose proof (asset_wp_le t ty ty (stricter_refl ty) T) as A. pose proof (liab_wp_le t ty ty (stricter_refl ty) T) as L.
  unfold contribution. set (aw := asset_wp t ty) in *. set (lw := liab_wp t ty) in *. clearbody aw lw.
  pose proof (fmul_nonneg a aw S1 ltac:(lia)) as N1. pose proof (fmul_nonneg l lw S2 ltac:(lia)) as N2. pose proof (fmul_nonneg l aw S2 ltac:(lia)) as N3. pose proof (fmul_nonneg a lw S1 ltac:(lia)) as N4.
  pose proof (fmul_sub a l aw) as F1. pose proof (fmul_sub a l lw) as F2. pose proof (fmul_sub 0 (l - a) lw) as F3. rewrite fmul_0_l in F3. replace (0 - (l - a)) with (a - l) in F3 by lia.
  destruct sa; cbv zeta; cbn [fst snd]; destruct (Z.leb_spec l a).
  - destruct (Z.ltb_spec (a - l) 0); [lia|]. lia.
  - destruct (Z.ltb_spec (a - l) 0); [|lia]. pose proof (fmul_nonneg (l - a) lw ltac:(lia) ltac:(lia)). lia.
  - destruct (Z.ltb_spec (a - l) 0); [lia|]. pose proof (fmul_nonneg (a - l) aw ltac:(lia) ltac:(lia)). lia.
  - destruct (Z.ltb_spec (a - l) 0); [|lia]. lia.
Qed.
Lemma assets_liabs_fold hc ty sa toks : Forall token_ok toks -> forall tot, 0 <= fst tot -> 0 <= snd tot ->
  let r := fold_left (token_assets_liabs hc ty sa) toks tot in
  let c := sum (map (fun t => contribution t ty (token_balance (hc_perps hc) ty t)) toks) in
  0 <= fst r /\ 0 <= snd r /\ c <= (fst r - snd r) - (fst tot - snd tot) <= c + Z.of_nat (length toks).
Proof.
  induction 1 as [|t toks T _ IH]; intros tot H1 H2; cbn [fold_left map]; cbv zeta; [change (sum []) with 0; cbn [length]; lia|].
  rewrite sum_cons. pose proof (token_assets_liabs_spec hc ty sa tot t T H1 H2) as (G1 & G2 & G3). specialize (IH _ G1 G2). cbv zeta in IH. cbn [length]. rewrite Nat2Z.inj_succ. lia.
Qed.
Lemma split_fold C : forall al, 0 <= fst al -> 0 <= snd al -> let r := fold_left split_add C al in
  0 <= fst r /\ 0 <= snd r /\ fst r - snd r = fst al - snd al + sum C.
Proof.
  induction C as [|c C IH]; intros al H1 H2; cbn [fold_left]; cbv zeta; [change (sum []) with 0; lia|]. destruct (split_add_nonneg al c H1 H2) as [G1 G2].
  specialize (IH _ G1 G2). cbv zeta in IH. rewrite split_add_diff in IH. rewrite sum_cons. lia.
Qed.
