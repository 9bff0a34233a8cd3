(** Lemmas about health. *)
From Coq Require Import List ZArith Lia Bool Arith.
From Verif Require Import Fixed Health HealthSpec.
Import ListNotations.
Open Scope Z_scope.

Lemma some_inj {A} (x y : A) : Some x = Some y -> x = y. Proof. congruence. Qed.
Lemma fmul_anti a b b' : a <= 0 -> b <= b' -> fmul a b' <= fmul a b.
Proof. intros. unfold fmul. apply Z.div_le_mono; [reflexivity|nia]. Qed.
Lemma fmul_nonpos a b : a <= 0 -> 0 <= b -> fmul a b <= 0.
Proof. intros. rewrite <- (fmul_0_r a). apply fmul_anti; assumption. Qed.

Lemma asset_price_le p a b : stricter a b -> prices_ok p -> 0 <= asset_price p a <= asset_price p b.
Proof. unfold prices_ok. destruct a, b; cbn [stricter asset_price]; intros []; lia. Qed.
Lemma liab_price_le p a b : stricter a b -> prices_ok p -> 0 <= liab_price p b <= liab_price p a.
Proof. unfold prices_ok. destruct a, b; cbn [stricter liab_price]; intros []; lia. Qed.
Lemma asset_weight_le t a b : stricter a b -> token_ok t -> 0 <= asset_weight t a <= asset_weight t b.
Proof. unfold token_ok. intros S (A & B & C & D & _). destruct a, b; cbn [stricter asset_weight] in *; destruct S; lia. Qed.
Lemma liab_weight_le t a b : stricter a b -> token_ok t -> 0 <= liab_weight t b <= liab_weight t a.
Proof. unfold token_ok. intros S (A & B & C & D & _). destruct a, b; cbn [stricter liab_weight] in *; destruct S; lia. Qed.
Lemma fmul_mono a a' b b' : 0 <= a <= a' -> 0 <= b <= b' -> 0 <= fmul a b <= fmul a' b'.
Proof.
  intros. split; [apply fmul_nonneg; lia|]. apply Z.le_trans with (fmul a' b); [apply fmul_mono_l; lia|apply fmul_mono_r; lia].
Qed.
Lemma asset_wp_le t a b : stricter a b -> token_ok t -> 0 <= asset_wp t a <= asset_wp t b.
Proof.
  intros S T. unfold asset_wp. apply fmul_mono; [apply asset_weight_le; assumption|apply asset_price_le; [assumption|apply T]].
Qed.
Lemma liab_wp_le t a b : stricter a b -> token_ok t -> 0 <= liab_wp t b <= liab_wp t a.
Proof.
  intros S T. unfold liab_wp. apply fmul_mono; [apply liab_weight_le; assumption|apply liab_price_le; [assumption|apply T]].
Qed.
Lemma stricter_refl a : stricter a a. Proof. destruct a; exact I. Qed.

Lemma contribution_le t a b x y : stricter a b -> token_ok t -> x <= y -> contribution t a x <= contribution t b y.
Proof.
  intros S T H. pose proof (asset_wp_le t a b S T) as A. pose proof (liab_wp_le t a b S T) as L. unfold contribution.
  destruct (Z.ltb_spec x 0), (Z.ltb_spec y 0); try lia.
  - apply Z.le_trans with (fmul x (liab_wp t b)); [apply fmul_anti; lia|apply fmul_mono_l; lia].
  - apply Z.le_trans with 0; [apply fmul_nonpos; lia|apply fmul_nonneg; lia].
  - apply Z.le_trans with (fmul x (asset_wp t b)); [apply fmul_mono_r; lia|apply fmul_mono_l; lia].
Qed.

(** ** perps *)
Lemma case_le pi a b n q q' : stricter a b -> perp_ok pi ->
  fmul (- of_int (n * pi_lot pi)) q <= fmul (- of_int (n * pi_lot pi)) q' ->
  execution_case pi a n q <= execution_case pi b n q'.
Proof.
  intros S (A & L & _ & Hl & _ & _ & P) Hq. unfold execution_case. set (net := (pi_base pi + n) * pi_lot pi).
  pose proof (asset_price_le _ _ _ S P) as PA. pose proof (liab_price_le _ _ _ S P) as PL. rewrite !fmul_int_l. apply Z.add_le_mono; [|exact Hq].
  clear Hq. destruct (Z.ltb_spec net 0).
  - set (wa := match a with HMaint => pi_maint_lw pi | _ => pi_init_lw pi end).
    set (wb := match b with HMaint => pi_maint_lw pi | _ => pi_init_lw pi end).
    assert (W : 0 <= wb <= wa) by (unfold wa, wb; destruct a, b; cbn [stricter] in S; destruct S; lia).
    apply Z.le_trans with (fmul (net * wa) (liab_price (pi_prices pi) b)); [apply fmul_anti; nia|apply fmul_mono_l; nia].
  - set (wa := match a with HMaint => pi_maint_aw pi | _ => pi_init_aw pi end).
    set (wb := match b with HMaint => pi_maint_aw pi | _ => pi_init_aw pi end).
    assert (W : 0 <= wa <= wb) by (unfold wa, wb; destruct a, b; cbn [stricter] in S; destruct S; lia).
    apply Z.le_trans with (fmul (net * wa) (asset_price (pi_prices pi) b)); [apply fmul_mono_r; nia|apply fmul_mono_l; nia].
Qed.
Lemma order_quote n lot q : fmul (- of_int (n * lot)) q = - (n * lot) * q.
Proof. rewrite <- of_int_opp, fmul_int_l. reflexivity. Qed.
Lemma uhupnl_le pi a b : stricter a b -> perp_ok pi -> uhupnl pi a <= uhupnl pi b.
Proof.
  intros S T. unfold uhupnl. apply Z.add_le_mono_l. pose proof T as (_ & _ & _ & Hl & Hb & Ha & P).
  pose proof (asset_price_le _ _ _ S P) as PA. pose proof (liab_price_le _ _ _ S P) as PL.
  apply Z.min_le_compat; apply case_le; auto; rewrite !order_quote.
  - assert (0 <= pi_bids pi * pi_lot pi) by nia. nia.
  - assert (0 <= pi_asks pi * pi_lot pi) by nia. nia.
Qed.
Lemma hupnl_le pi a b : stricter a b -> perp_ok pi -> hupnl pi a <= hupnl pi b.
Proof.
  intros S T. pose proof (uhupnl_le pi a b S T) as U. pose proof T as (_ & _ & O & _). unfold hupnl. cbv zeta.
  assert (W : 0 <= overall_weight pi a <= overall_weight pi b) by (destruct a, b; cbn [stricter overall_weight] in *; destruct S; lia).
  set (x := uhupnl pi a) in *. set (y := uhupnl pi b) in *. destruct (Z.ltb_spec 0 x), (Z.ltb_spec 0 y); try lia.
  - apply fmul_mono; lia.
  - apply Z.le_trans with 0; [lia|apply fmul_nonneg; lia].
Qed.

(** ** balances *)
Lemma sum_cons x L : sum (x :: L) = x + sum L. Proof. reflexivity. Qed.
Lemma add_at_length L i x : length (add_at L i x) = length L.
Proof. revert i. induction L as [|y L IH]; intros [|i]; cbn [add_at length]; auto. Qed.
Lemma add_at_nth L i x j : (i < length L)%nat -> nth j (add_at L i x) 0 = nth j L 0 + if (i =? j)%nat then x else 0.
Proof.
  revert i j. induction L as [|y L IH]; intros i j H; [cbn in H; lia|]. destruct i as [|i], j as [|j]; cbn [add_at nth Nat.eqb]; try lia.
  apply IH. cbn [length] in H. lia.
Qed.
Lemma token_pos_lt L idx i : token_pos L idx = Some i -> (i < length L)%nat /\ exists t, nth_error L i = Some t /\ ti_index t = idx.
Proof.
  revert i. induction L as [|t L IH]; intros i; cbn [token_pos]; [discriminate|]. destruct (Z.eqb_spec (ti_index t) idx).
  - intros H. apply some_inj in H; subst i. cbn [length nth_error]. split; [lia|]. eauto.
  - destruct (token_pos L idx) as [k|]; [|discriminate]. cbn [option_map]. intros H. apply some_inj in H; subst i.
    destruct (IH k eq_refl) as [H1 H2]. cbn [length nth_error]. split; [lia|exact H2].
Qed.
(** the perp part of the balance of the token at position [j] *)
Definition perp_part (toks : list tinfo) (ty : htype) (ign : bool) (P : list pinfo) (j : nat) : Z :=
  sum (map (fun pi => match token_pos toks (pi_settle pi) with
                      | Some i => if (i =? j)%nat && (negb ign || (0 <? hupnl pi ty)) then hupnl pi ty else 0
                      | None => 0 end) P).
Lemma perp_balances_spec toks ty ign P : forall acc B, length acc = length toks ->
  perp_balances toks ty ign P acc = Some B ->
  length B = length toks /\ (forall j, nth j B 0 = nth j acc 0 + perp_part toks ty ign P j) /\
  Forall (fun pi => token_pos toks (pi_settle pi) <> None) P.
Proof.
  induction P as [|pi P IH]; intros acc B HL; cbn [perp_balances].
  - intros H. apply some_inj in H; subst B. split; [exact HL|]. split; [|constructor]. intros j. unfold perp_part. cbn [map sum fold_right]. lia.
  - destruct (token_pos toks (pi_settle pi)) as [i|] eqn:E; [|discriminate]. pose proof (token_pos_lt _ _ _ E) as [Hi _]. intros H.
    assert (HL' : length (if negb ign || (0 <? hupnl pi ty) then add_at acc i (hupnl pi ty) else acc) = length toks)
      by (destruct (_ || _); rewrite ?add_at_length; exact HL).
    destruct (IH _ _ HL' H) as (H1 & H2 & H3). split; [exact H1|]. split; [|constructor; [congruence|exact H3]].
    intros j. rewrite H2. unfold perp_part. cbn [map]. rewrite sum_cons, E. destruct (negb ign || (0 <? hupnl pi ty)).
    + rewrite add_at_nth by lia. rewrite andb_true_r. lia.
    + rewrite andb_false_r. lia.
Qed.
Lemma perp_balances_total toks ty ign P : Forall (fun pi => token_pos toks (pi_settle pi) <> None) P ->
  forall acc, exists B, perp_balances toks ty ign P acc = Some B.
Proof.
  induction 1 as [|pi P H _ IH]; intros acc; cbn [perp_balances]; [eauto|]. destruct (token_pos toks (pi_settle pi)); [apply IH|congruence].
Qed.
Lemma zeros_nth n j : nth j (zeros n) 0 = 0.
Proof. revert j. induction n as [|n IH]; intros [|j]; cbn [zeros repeat nth]; auto; apply IH. Qed.
Lemma zeros_length n : length (zeros n) = n. Proof. apply repeat_length. Qed.
Lemma zadd_length A B : length A = length B -> length (zadd A B) = length A.
Proof. intros H. unfold zadd. rewrite map_length, combine_length. lia. Qed.
Lemma zadd_nth A B j : length A = length B -> nth j (zadd A B) 0 = nth j A 0 + nth j B 0.
Proof.
  revert B j. induction A as [|a A IH]; intros [|b B] j H; try (cbn in H; lia); [destruct j; reflexivity|].
  destruct j as [|j]; cbn [zadd combine map nth fst snd]; [reflexivity|]. apply IH. cbn in H; lia.
Qed.
Lemma balances_spec hc ty ign B : balances hc ty ign = Some B ->
  length B = length (hc_tokens hc) /\
  (forall j, nth j B 0 = nth j (map ti_spot (hc_tokens hc)) 0 + perp_part (hc_tokens hc) ty ign (hc_perps hc) j) /\
  Forall (fun pi => token_pos (hc_tokens hc) (pi_settle pi) <> None) (hc_perps hc).
Proof.
  unfold balances. destruct (perp_balances _ _ _ _ _) as [L|] eqn:E; [|discriminate]. intros H. apply some_inj in H; subst B.
  apply perp_balances_spec in E as (H1 & H2 & H3); [|apply zeros_length].
  assert (HL : length L = length (map ti_spot (hc_tokens hc))) by (rewrite map_length; exact H1).
  split; [rewrite zadd_length; assumption|]. split; [|exact H3]. intros j. rewrite zadd_nth by exact HL. rewrite H2, zeros_nth. lia.
Qed.
Lemma balances_total hc ty ty' ign ign' B : balances hc ty ign = Some B -> exists B', balances hc ty' ign' = Some B'.
Proof.
  intros H. apply balances_spec in H as (_ & _ & H). unfold balances.
  destruct (perp_balances_total _ ty' ign' _ H (zeros (length (hc_tokens hc)))) as [B' ->]. eauto.
Qed.
Lemma perp_part_le toks a b P j : stricter a b -> Forall perp_ok P -> perp_part toks a false P j <= perp_part toks b false P j.
Proof.
  intros S. induction 1 as [|pi P H _ IH]; [reflexivity|]. unfold perp_part in *. cbn [map sum fold_right negb orb] in *. apply Z.add_le_mono; [|exact IH].
  destruct (token_pos toks (pi_settle pi)) as [i|]; [|lia]. destruct (i =? j)%nat; cbn [andb]; [apply hupnl_le; assumption|lia].
Qed.
Lemma nth_le_Forall2 A B : length A = length B -> (forall j, nth j A 0 <= nth j B 0) -> Forall2 Z.le A B.
Proof.
  revert B. induction A as [|a A IH]; intros [|b B] H1 H2; try (cbn in H1; lia); constructor; [apply (H2 O)|].
  apply IH; [cbn in H1; lia|]. intros j. apply (H2 (S j)).
Qed.
Lemma balances_le hc a b A B : stricter a b -> cache_ok hc ->
  balances hc a false = Some A -> balances hc b false = Some B -> Forall2 Z.le A B.
Proof.
  intros S (_ & P & _) HA HB. apply balances_spec in HA as (LA & NA & _). apply balances_spec in HB as (LB & NB & _).
  apply nth_le_Forall2; [congruence|]. intros j. rewrite NA, NB. apply Z.add_le_mono_l. apply perp_part_le; assumption.
Qed.

Lemma contributions_le toks a b A B : stricter a b -> Forall token_ok toks -> Forall2 Z.le A B ->
  sum (token_contributions toks a A) <= sum (token_contributions toks b B).
Proof.
  intros S T H. revert A B H. induction T as [|t toks Ht _ IH]; intros A B H; [reflexivity|].
  destruct H as [|x y A B Hxy H]; [reflexivity|]. unfold token_contributions in *. cbn [combine map fst snd sum fold_right].
  apply Z.add_le_mono; [apply contribution_le; assumption|apply IH; exact H].
Qed.

(** ** serum contributions without reserved funds *)
Lemma div_f64_0 b r : div_f64 0 b = Some r -> r = 0.
Proof. unfold div_f64. destruct (b =? 0); [discriminate|]. cbn [f64_round Z.abs Z.log2 Z.sub Z.leb Z.compare Z.add Z.opp]. intros H. apply some_inj in H. auto. Qed.
Lemma reservations_length toks ty O : forall acc M R, reservations toks ty O acc = Some (M, R) -> length R = length O /\ length M = length acc.
Proof.
  induction O as [|si O IH]; intros acc M R; cbn [reservations].
  - intros H. apply some_inj in H. injection H as <- <-. auto.
  - destruct (nth_error toks (si_quote si)) as [q|]; [|discriminate]. destruct (nth_error toks (si_base si)) as [b|]; [|discriminate].
    destruct (reserved_as_base si ty q b) as [rb|]; [|discriminate]. destruct (reserved_as_quote si ty q b) as [rq|]; [|discriminate].
    destruct (reservations toks ty O _) as [[M' R']|] eqn:E; [|discriminate]. intros H. apply some_inj in H. injection H as <- <-.
    apply IH in E as [E1 E2]. cbn [length]. rewrite !add_at_length in E2. auto.
Qed.
Lemma no_reserved_zero toks ty O : Forall (fun s => si_res_base s = 0 /\ si_res_quote s = 0 /\ si_base_as_quote s = 0 /\ si_quote_as_base s = 0) O ->
  forall acc M R, reservations toks ty O acc = Some (M, R) ->
  Forall (fun sr => snd sr = (0, 0)) (combine O R).
Proof.
  induction 1 as [|si O (HB & HQ & HX & HY) _ IH]; intros acc M R; cbn [reservations].
  - intros H. apply some_inj in H. injection H as <- <-. constructor.
  - destruct (nth_error toks (si_quote si)) as [q|]; [|discriminate]. destruct (nth_error toks (si_base si)) as [b|]; [|discriminate].
    unfold reserved_as_base at 1. rewrite HB, HQ, HY, fmul_0_l. destruct (div_f64 0 _) as [x|] eqn:E; [|discriminate]. apply div_f64_0 in E; subst x.
    unfold reserved_as_quote at 1. rewrite HB, HQ, HX, fmul_0_l.
    destruct (div_f64 0 _) as [x|] eqn:E'; [|discriminate]. apply div_f64_0 in E'; subst x.
    destruct (reservations toks ty O _) as [[M' R']|] eqn:E''; [|discriminate]. intros H. apply some_inj in H. injection H as <- <-.
    cbn [combine]. constructor; [|eapply IH; exact E'']. reflexivity.
Qed.
Lemma no_reserved_sum hc ty B C : no_reserved hc -> serum_contributions hc ty B = Some C -> sum C = 0.
Proof.
  intros N. unfold serum_contributions. destruct (reservations _ _ _ _) as [[M R]|] eqn:E; [|discriminate]. intros H. apply some_inj in H; subst C.
  apply no_reserved_zero in E; [|exact N]. induction E as [|[s r] L H _ IH]; [reflexivity|]. cbn [map]. rewrite sum_cons, IH. cbn [snd] in H. subst r.
  cbn [fst snd serum_contribution Z.eqb orb]. reflexivity.
Qed.
Lemma health_no_reserved hc ty h : no_reserved hc -> health hc ty = Some h ->
  exists B, balances hc ty false = Some B /\ h = sum (token_contributions (hc_tokens hc) ty B).
Proof.
  intros N. unfold health. destruct (balances hc ty false) as [B|]; [|discriminate]. unfold health_sum.
  destruct (serum_contributions hc ty B) as [C|] eqn:E; [|discriminate]. intros H. apply some_inj in H; subst h.
  exists B. split; [reflexivity|]. rewrite (no_reserved_sum _ _ _ _ N E). lia.
Qed.
