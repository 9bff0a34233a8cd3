(** C36, C42, C57-C62: account health. *)
From Coq Require Import List ZArith Lia Bool Arith.
From Verif Require Import Fixed PerpTypes Health HealthSpec HealthFacts HealthDiv HealthOrders HealthMore HealthSkip HealthDiv2.
Import ListNotations.
Open Scope Z_scope.

(** ** C36: stricter kinds of health are never larger *)
(** exact when no tokens are reserved by spot orders *)
Theorem C36_ordered hc a b x y :
  stricter a b -> cache_ok hc -> no_reserved hc ->
  health hc a = Some x -> health hc b = Some y -> x <= y.
Proof.
  intros S OK N Hx Hy. destruct (health_no_reserved _ _ _ N Hx) as (A & HA & ->). destruct (health_no_reserved _ _ _ N Hy) as (B & HB & ->).
  apply contributions_le; [exact S|apply OK|]. eapply balances_le; eassumption.
Qed.
Print Assumptions C36_ordered.

(** with spot orders, when no two markets share a token: up to rounding, which is at most
    the sum of all balances and a few prices, in units of 2^-48 *)
Theorem C36_ordered_with_orders hc a b x y A B :
  stricter a b -> cache_ok hc -> toks_ok (hc_tokens hc) -> Forall serum_ok (hc_serum hc) -> NoDup (touched (hc_serum hc)) ->
  health hc a = Some x -> health hc b = Some y ->
  balances hc a false = Some A -> balances hc b false = Some B ->
  (x - y) * fone <= borrowed A + held B + fone * Z.of_nat (length (hc_tokens hc)) + sum (map (market_slack (hc_tokens hc) b) (hc_serum hc)).
Proof.
  intros S OK T HS ND Hx Hy HA HB. pose proof Hy as Hy'. unfold health in Hy'. rewrite HB in Hy'. unfold health_sum, serum_contributions in Hy'.
  destruct (reservations _ _ _ _) as [[M R]|] eqn:E; [|discriminate]. apply some_inj in Hy'; subst y.
  pose proof (balances_spec _ _ _ _ HB) as (HL & _).
  destruct (outcome_lower (hc_tokens hc) b B M T _ HS _ _ _ B ND E HL) as (fills & B' & F1 & F2 & F3).
  - intros j _. split; [reflexivity|]. rewrite (reservations_nth _ _ _ _ _ _ (zeros_length _) E j), zeros_nth. lia.
  - destruct (health_outcome hc a x A fills T HS Hx HA F1) as (A' & G1 & G2).
    assert (TO : Forall token_ok (hc_tokens hc)) by apply OK.
    assert (L1 : Forall2 Z.le A B) by (eapply balances_le; eassumption).
    assert (L2 : Forall2 Z.le A' B') by (eapply resolve_le; eassumption).
    pose proof (exact_value_le _ _ _ _ _ S TO L2) as L3. pose proof (tokens_lower (hc_tokens hc) b B TO HL) as L4.
    pose proof fone_pos as FP. set (tc := sum (token_contributions _ _ _)) in *. set (sc := sum (map _ (combine _ _))) in *. set (ms := sum (map (market_slack _ _) _)) in *.
    set (n := Z.of_nat _) in *. clearbody tc sc ms n. apply (Z.mul_le_mono_pos_r _ _ fone FP). nia.
Qed.
Print Assumptions C36_ordered_with_orders.

Definition pc (n : Z) : fx := of_int n / 100.
Definition tok_w (idx aw lw : Z) (spot : Z) : tinfo :=
  mkTI idx (pc aw) (pc aw) (pc aw) (pc lw) (pc lw) (pc lw) (mkPr fone fone) (of_int spot) true.
Definition perp_w (settle iaw maw base quote bids asks : Z) : pinfo :=
  mkPI 0 settle (pc maw) (pc iaw) (pc 120) (pc 140) fone fone 1 base bids asks (of_int quote) (mkPr fone fone) (negb ((bids =? 0) && (asks =? 0))) false.
(** not when markets share a token: two bids whose markets have the same quote token,
    which is borrowed.  The reserved tokens of each market are taken to repay the borrow
    last, so that a higher balance makes both count as surplus. *)
Definition shared_cache : cache :=
  mkHC [tok_w 0 20 120 (-20); tok_w 1 100 120 0; tok_w 2 100 120 0]
       [mkSI 1 0 0 (of_int 10) 0 0 0 false; mkSI 2 0 0 (of_int 10) 0 0 1 false]
       [perp_w 0 80 90 100 (-80) 0 0].
Theorem C36_shared_token_refuted : exists hc x y,
  cache_ok hc /\ toks_ok (hc_tokens hc) /\ Forall serum_ok (hc_serum hc) /\ Forall perp_ok (hc_perps hc) /\
  health hc HInit = Some x /\ health hc HMaint = Some y /\ y + of_int 3 < x.
Proof.
  exists shared_cache, (match health shared_cache HInit with Some x => x | None => 0 end), (match health shared_cache HMaint with Some x => x | None => 0 end).
  assert (TO : toks_ok (hc_tokens shared_cache)).
  { unfold toks_ok. repeat (apply Forall_cons || apply Forall_nil); (split; [|split; [discriminate|split; reflexivity]]);
    unfold token_ok, prices_ok; (split; [split; discriminate|]); (split; [discriminate|]); (split; [split; discriminate|]); (split; [discriminate|]); split; discriminate. }
  split; [|split; [exact TO|]].
  - split; [eapply Forall_impl; [|exact TO]; cbn; tauto|]. split.
    + constructor; [|constructor]. unfold perp_ok, prices_ok. repeat (split; [try discriminate; try (split; discriminate)|]); try discriminate; split; discriminate.
    + cbn [shared_cache hc_tokens map tok_w ti_index]. repeat constructor; cbn; intuition discriminate.
  - split; [repeat constructor; discriminate|]. split.
    + constructor; [|constructor]. unfold perp_ok, prices_ok. repeat (split; [try discriminate; try (split; discriminate)|]); try discriminate; split; discriminate.
    + split; [vm_compute; reflexivity|]. split; [vm_compute; reflexivity|]. apply Z.ltb_lt. vm_compute. reflexivity.
Qed.
Print Assumptions C36_shared_token_refuted.

(** a case with a borrow, a perp position with orders, and spot orders *)
Definition example_cache : cache :=
  mkHC [mkTI 0 fone fone fone fone fone fone (mkPr fone fone) (of_int 100) true;
        mkTI 1 (pc 90) (pc 80) (pc 60) (pc 110) (pc 120) (pc 130) (mkPr (3 * fone) (4 * fone)) (of_int (-20)) true]
       [mkSI 1 0 (of_int 5) (of_int 30) 0 0 0 false]
       [perp_w 0 80 90 10 (-5) 3 4].
Definition without_orders (hc : cache) : cache := mkHC (hc_tokens hc) [] (hc_perps hc).
Ltac zle := first [apply Z.leb_le; vm_compute; reflexivity | apply Z.ltb_lt; vm_compute; reflexivity].
Ltac zr := repeat (split; [first [zle | split; zle]|]); first [zle | split; zle].
Lemma example_ok : cache_ok example_cache /\ toks_ok (hc_tokens example_cache) /\ Forall serum_ok (hc_serum example_cache) /\ NoDup (touched (hc_serum example_cache)).
Proof.
  assert (TO : toks_ok (hc_tokens example_cache)).
  { constructor; [|constructor; [|constructor]]; (split; [|split; [zle|split; zle]]); unfold token_ok, prices_ok; zr. }
  split; [|split; [exact TO|]].
  - split; [eapply Forall_impl; [|exact TO]; cbn; tauto|]. split.
    + constructor; [|constructor]. unfold perp_ok, prices_ok. zr.
    + cbn [example_cache hc_tokens map ti_index]. repeat constructor; cbn; intuition discriminate.
  - split; [constructor; [|constructor]; unfold serum_ok; zr|]. cbn [example_cache hc_serum touched flat_map si_base si_quote app]. repeat constructor; cbn; intuition discriminate.
Qed.
Example C36_example :
  cache_ok (without_orders example_cache) /\ no_reserved (without_orders example_cache) /\
  (exists x y z, health (without_orders example_cache) HInit = Some x /\ health (without_orders example_cache) HLiqEnd = Some y /\
     health (without_orders example_cache) HMaint = Some z /\ x < y < z) /\
  (exists x y z, health example_cache HInit = Some x /\ health example_cache HLiqEnd = Some y /\ health example_cache HMaint = Some z /\ x < y < z /\
     exists A B, balances example_cache HInit false = Some A /\ balances example_cache HMaint false = Some B /\
       borrowed A + held B + fone * 2 + sum (map (market_slack (hc_tokens example_cache) HMaint) (hc_serum example_cache)) < fone * 500).
Proof.
  split; [apply example_ok|]. split; [constructor|].
  split.
  - eexists. eexists. eexists. split; [vm_compute; reflexivity|]. split; [vm_compute; reflexivity|]. split; [vm_compute; reflexivity|]. split; zle.
  - eexists. eexists. eexists. split; [vm_compute; reflexivity|]. split; [vm_compute; reflexivity|]. split; [vm_compute; reflexivity|]. split; [split; zle|].
    eexists. eexists. split; [vm_compute; reflexivity|]. split; [vm_compute; reflexivity|]. zle.
Qed.

(** what a balance counts for: initial health takes the worse of oracle and stable price
    and the weights scaled by the size of the token's deposits and borrows, liquidation-end
    and maintenance health the oracle price and their own weights *)
Definition counts_for (t : tinfo) (ty : htype) (x : fx) : fx :=
  let oracle := pr_oracle (ti_prices t) in
  let stable := pr_stable (ti_prices t) in
  let '(weight, price) :=
    match ty with
    | HInit => if x <? 0 then (ti_scaled_lw t, Z.max oracle stable) else (ti_scaled_aw t, Z.min oracle stable)
    | HLiqEnd => if x <? 0 then (ti_init_lw t, oracle) else (ti_init_aw t, oracle)
    | HMaint => if x <? 0 then (ti_maint_lw t, oracle) else (ti_maint_aw t, oracle)
    end in
  x * (weight * price / fone) / fone.
Theorem C36_valuation hc ty h :
  hc_perps hc = [] -> no_reserved hc -> health hc ty = Some h ->
  h = sum (map (fun t => counts_for t ty (ti_spot t)) (hc_tokens hc)).
Proof.
  intros P N H. destruct (health_no_reserved _ _ _ N H) as (B & HB & ->). unfold balances in HB. rewrite P in HB. cbn [perp_balances] in HB.
  apply some_inj in HB. subst B. unfold token_contributions. f_equal.
  generalize (hc_tokens hc). clear. induction l as [|t l IH]; [reflexivity|]. cbn [length zeros repeat map]. unfold zadd in *. cbn [combine map fst snd].
  unfold zeros in IH. rewrite IH. f_equal. rewrite Z.add_0_l. unfold contribution, counts_for, asset_wp, liab_wp, fmul.
  destruct ty; cbn [asset_weight liab_weight asset_price liab_price]; destruct (ti_spot t <? 0); reflexivity.
Qed.
Print Assumptions C36_valuation.
Example C36_valuation_example : exists h, health (mkHC (hc_tokens example_cache) [] []) HInit = Some h /\
  of_int (-5) < h < of_int (-3).
Proof. eexists. split; [vm_compute; reflexivity|]. split; zle. Qed.

(** ** C42: amounts that bring health to zero *)
(** taking the returned amount of a token, of which the account has [s], from an account
    with health [h]: what is left of the health is zero, up to the value of the smallest
    unit of the token and 2^-48 *)
Theorem C42_taken h s awp lwp t :
  0 <= awp -> spot_amount_taken h s awp lwp = Some t ->
  (h <= 0 -> t = 0) /\
  (0 < h -> 0 <= t /\ - fone < h * fone - (worth awp lwp s - worth awp lwp (s - t)) < Z.max fone (Z.max awp lwp)).
Proof.
  intros Ha H. split; [|intros; apply taken_spec; assumption]. intros Hh. unfold spot_amount_taken in H. destruct (Z.leb_spec h 0); [|lia]. apply some_inj in H. auto.
Qed.
Print Assumptions C42_taken.
(** giving the returned amount to an account with negative health *)
Theorem C42_given h s awp lwp t :
  0 <= lwp -> spot_amount_given h s awp lwp = Some t ->
  (0 <= h -> t = 0) /\
  (h < 0 -> 0 <= t /\ - Z.max fone (Z.max awp lwp) < h * fone + (worth awp lwp (s + t) - worth awp lwp s) < fone).
Proof.
  intros Hl H. split.
  - intros Hh. unfold spot_amount_given, spot_amount_taken in H. destruct (Z.leb_spec (- h) 0); [|lia]. apply some_inj in H. auto.
  - intros Hh. pose proof (given_spec h s awp lwp t Hl H Hh). lia.
Qed.
Print Assumptions C42_given.
(** there is no answer only if a borrow would be needed but counts for nothing *)
Theorem C42_defined h s awp lwp : 0 < lwp -> exists t, spot_amount_taken h s awp lwp = Some t.
Proof.
  intros Hl. unfold spot_amount_taken. cbv zeta. apply Z.ltb_lt in Hl. rewrite Hl. repeat match goal with |- context [if ?c then _ else _] => destruct c end; eexists; reflexivity.
Qed.
Print Assumptions C42_defined.
(** an account that pays what [perp_max_settle] allows keeps its health, counting only
    positive perp positions, above minus two units of 2^-48, and the rounding for spot
    orders *)
Theorem C42_max_settle hc settle t i tok B h h' :
  toks_ok (hc_tokens hc) -> Forall serum_ok (hc_serum hc) ->
  perp_max_settle hc settle = Some t -> balances hc HMaint true = Some B -> health_sum hc HMaint B = Some h ->
  token_pos (hc_tokens hc) settle = Some i -> nth_error (hc_tokens hc) i = Some tok ->
  health_sum hc HMaint (add_at B i (- t)) = Some h' ->
  (h <= 0 -> t = 0) /\
  (0 < h -> 0 <= t /\ - (2 * fone) < h' * fone + sum (map (market_slack (hc_tokens hc) HMaint) (hc_serum hc))).
Proof.
  intros T HS HM HB Hh Hi Ht Hh'. unfold perp_max_settle in HM. rewrite HB, Hh, Hi, Ht in HM.
  assert (TO : token_ok tok) by (apply (toks_ok_nth _ _ _ T Ht)). pose proof (asset_wp_le tok HMaint HMaint (stricter_refl _) TO) as A.
  destruct (C42_taken _ _ _ _ _ (proj1 A) HM) as [C1 C2]. split; [exact C1|]. intros P. destruct (C2 P) as [T0 C3]. split; [exact T0|].
  pose proof (balances_spec _ _ _ _ HB) as (HL & _). pose proof (health_sum_lowered hc HMaint B i tok t h h' T HS HL Ht T0 Hh Hh') as X.
  pose proof (contribution_worth tok HMaint (nth i B 0)) as W1. pose proof (contribution_worth tok HMaint (nth i B 0 - t)) as W2.
  set (c := contribution tok HMaint (nth i B 0)) in *. set (c' := contribution tok HMaint (nth i B 0 - t)) in *. set (w := worth _ _ (nth i B 0)) in *. set (w' := worth _ _ _) in *. set (m := sum _) in *.
  clearbody c c' w w' m. pose proof fone_pos as FP.
  assert (E : (h + c' - c) * fone <= h' * fone + m) by (apply (Z.mul_le_mono_pos_r _ _ fone FP); lia). lia.
Qed.
Print Assumptions C42_max_settle.
Example C42_example :
  let awp := pc 90 in let lwp := pc 110 in
  (exists t, spot_amount_taken (of_int 20) (of_int 10) awp lwp = Some t /\ of_int 20 - 20 < t < of_int 20 + 20) /\
  spot_amount_taken (of_int 5) (of_int 10) awp lwp = Some (fdiv (of_int 5) awp) /\
  (exists t, spot_amount_given (of_int (-20)) (of_int (-10)) awp lwp = Some t /\ of_int 20 - 20 < t < of_int 20 + 20) /\
  (exists t h', perp_max_settle example_cache 0 = Some t /\ 0 < t /\
     match balances example_cache HMaint true with Some B => health_sum example_cache HMaint (add_at B 0 (- t)) = Some h' /\ -2 < h' < 2 | None => False end).
Proof.
  cbv zeta. split; [eexists; split; [vm_compute; reflexivity|split; zle]|]. split; [vm_compute; reflexivity|]. split; [eexists; split; [vm_compute; reflexivity|split; zle]|].
  eexists. eexists. split; [vm_compute; reflexivity|]. split; [zle|]. vm_compute. split; [reflexivity|]. split; reflexivity.
Qed.

(** ** C57: perp orders *)
(** whatever part of the bids and asks gets filled at the prices health assumes, the
    position is worth at least what health counts *)
Theorem C57_every_execution pi ty b a :
  perp_haircut pi -> 0 <= b <= pi_bids pi -> 0 <= a <= pi_asks pi ->
  uhupnl pi ty * fone <= fills_value pi ty b a.
Proof. apply uhupnl_fills. Qed.
Print Assumptions C57_every_execution.
(** and it is the worst of these: all bids or all asks filled, up to 2^-48 *)
Theorem C57_attained pi ty :
  Z.min (fills_value pi ty (pi_bids pi) 0) (fills_value pi ty 0 (pi_asks pi)) < uhupnl pi ty * fone + fone.
Proof. pose proof (uhupnl_attained pi ty). lia. Qed.
Print Assumptions C57_attained.
(** positive pnl counts for at most its overall weight, negative pnl in full *)
Theorem C57_overall pi ty :
  0 <= overall_weight pi ty <= fone ->
  hupnl pi ty <= uhupnl pi ty /\ (uhupnl pi ty <= 0 -> hupnl pi ty = uhupnl pi ty) /\ (0 < uhupnl pi ty -> 0 <= hupnl pi ty).
Proof.
  intros W. unfold hupnl. cbv zeta. pose proof (fmul_bounds (overall_weight pi ty) (uhupnl pi ty)) as F. pose proof fone_pos. destruct (Z.ltb_spec 0 (uhupnl pi ty)).
  - pose proof (fmul_nonneg (overall_weight pi ty) (uhupnl pi ty)). split; [nia|]. split; lia.
  - lia.
Qed.
Print Assumptions C57_overall.
Example C57_example :
  let pi := perp_w 0 80 90 10 (-5) 30 40 in
  perp_haircut pi /\ fills_value pi HMaint 0 40 < fills_value pi HMaint 20 10 /\ fills_value pi HMaint 20 10 < fills_value pi HMaint 0 0 /\
  uhupnl pi HMaint = of_int (-5) + of_int 40 - 30 * pc 120.
Proof.
  cbv zeta. split; [unfold perp_haircut, prices_ok; zr|]. split; [zle|]. split; [zle|]. vm_compute. reflexivity.
Qed.

(** ** C58: skipping missing banks and bad oracles *)
(** without spot orders the computed health is never above the health with all banks *)
Theorem C58_skipping L O P hs hf ty x y :
  Forall position_ok L -> Forall free_ok O -> Forall all_free O -> NoDup (map (fun p => ti_index (pin_info p)) L) ->
  build_cache true L O P = Some hs -> build_cache false (map complete L) O P = Some hf ->
  health hs ty = Some x -> health hf ty = Some y -> x <= y.
Proof. apply skipped_health. Qed.
Print Assumptions C58_skipping.
(** with spot orders it can be: "guaranteed to be less" (cache.rs:1250) does not hold.
    Leaving out the bank of token 0, an asset of weight zero, drops a market that shares
    the quote token. *)
Definition skip_pos : list pos_in :=
  [mkPosIn false true true (tok_w 0 0 200 0); mkPosIn true true false (tok_w 1 20 120 (-10)); mkPosIn true true true (tok_w 2 100 120 0)].
Definition skip_markets : list serum_in :=
  [mkSerumIn 2 1 (mkOO 0 0 0 10 0) 0 0 0; mkSerumIn 0 1 (mkOO 0 0 0 10 0) 0 0 1].
Theorem C58_with_orders_refuted : exists L O hs hf x y,
  Forall position_ok L /\ Forall free_ok O /\ NoDup (map (fun p => ti_index (pin_info p)) L) /\
  build_cache true L O [] = Some hs /\ build_cache false (map complete L) O [] = Some hf /\
  health hs HInit = Some x /\ health hf HInit = Some y /\ y + of_int 7 < x.
Proof.
  exists skip_pos, skip_markets. eexists. eexists. eexists. eexists.
  split; [repeat (apply Forall_cons || apply Forall_nil); (split; [unfold token_ok, prices_ok; cbn [pin_info]; zr|cbn [pin_nonneg]; intros E; try discriminate; zle])|].
  split; [repeat (apply Forall_cons || apply Forall_nil); split; zle|].
  split; [cbn [skip_pos map pin_info tok_w ti_index]; repeat constructor; cbn; intuition discriminate|].
  split; [vm_compute; reflexivity|]. split; [vm_compute; reflexivity|]. split; [vm_compute; reflexivity|]. split; [vm_compute; reflexivity|]. zle.
Qed.
Print Assumptions C58_with_orders_refuted.
Example C58_example : exists L O hs hf x y,
  Forall position_ok L /\ Forall free_ok O /\ Forall all_free O /\ NoDup (map (fun p => ti_index (pin_info p)) L) /\
  build_cache true L O [perp_w 2 80 90 10 (-5) 3 4] = Some hs /\ build_cache false (map complete L) O [perp_w 2 80 90 10 (-5) 3 4] = Some hf /\
  health hs HInit = Some x /\ health hf HInit = Some y /\ x + of_int 10 < y.
Proof.
  exists [mkPosIn false true true (tok_w 0 80 120 20); mkPosIn true true false (tok_w 1 80 120 (-10)); mkPosIn true true true (tok_w 2 100 120 50); mkPosIn true false true (tok_w 3 100 120 50)],
    [mkSerumIn 0 2 (mkOO 7 7 5 5 0) 0 0 0; mkSerumIn 1 2 (mkOO 3 3 2 2 0) 0 0 0]. eexists. eexists. eexists. eexists.
  split; [repeat (apply Forall_cons || apply Forall_nil); (split; [unfold token_ok, prices_ok; cbn [pin_info]; zr|cbn [pin_nonneg]; intros E; try discriminate; zle])|].
  split; [repeat (apply Forall_cons || apply Forall_nil); split; zle|].
  split; [repeat (apply Forall_cons || apply Forall_nil); split; reflexivity|].
  split; [cbn [map pin_info tok_w ti_index]; repeat constructor; cbn; intuition discriminate|].
  split; [vm_compute; reflexivity|]. split; [vm_compute; reflexivity|]. split; [vm_compute; reflexivity|]. split; [vm_compute; reflexivity|]. zle.
Qed.

(** ** C59: health is assets minus liabilities *)
(** both ways of splitting give nonnegative numbers whose difference is the health, up to
    2^-48 per token *)
Theorem C59_assets_minus_liabs hc ty stable_assets A L h :
  cache_ok hc -> assets_and_liabs hc ty stable_assets = Some (A, L) -> health hc ty = Some h ->
  0 <= A /\ 0 <= L /\ h <= A - L <= h + Z.of_nat (length (hc_tokens hc)).
Proof.
  intros (T & _ & N) HA Hh. unfold assets_and_liabs in HA. unfold health in Hh. destruct (balances hc ty false) as [B|] eqn:EB; [|discriminate].
  unfold health_sum in Hh. destruct (serum_contributions hc ty B) as [C|]; [|discriminate]. apply some_inj in Hh; subst h. apply some_inj in HA.
  apply balances_map in EB; [|exact N]. subst B. rewrite contributions_map.
  assert (Z1 : 0 <= fst (0, 0) /\ 0 <= snd (0, 0)) by (cbn; lia).
  pose proof (assets_liabs_fold hc ty stable_assets _ T _ (proj1 Z1) (proj2 Z1)) as (F1 & F2 & F3). cbv zeta in F3.
  pose proof (split_fold C _ F1 F2) as (G1 & G2 & G3). rewrite HA in G1, G2, G3. cbn [fst snd] in *. lia.
Qed.
Print Assumptions C59_assets_minus_liabs.
Example C59_example : cache_ok example_cache /\ exists A L h,
  assets_and_liabs example_cache HMaint false = Some (A, L) /\ health example_cache HMaint = Some h /\ of_int 50 < L /\ of_int 100 < A /\ 0 < h.
Proof.
  split; [apply example_ok|]. eexists. eexists. eexists. split; [vm_compute; reflexivity|]. split; [vm_compute; reflexivity|]. split; [zle|]. split; zle.
Qed.

(** ** C60: liquidation phases *)
(** the phases exclude each other, and the checks before phases 2 and 3 are what they say *)
Theorem C60_exclusive hc Z :
  (in_phase1 hc = true -> in_phase2 hc Z = false /\ in_phase3 hc Z = false) /\
  (in_phase2 hc Z = true -> in_phase3 hc Z = false) /\
  (after_phase1 hc = true <-> in_phase1 hc = false) /\
  (after_phase2 hc Z = true <-> in_phase1 hc = false /\ in_phase2 hc Z = false).
Proof.
  unfold in_phase1, in_phase2, in_phase3, after_phase1, after_phase2, after_phase1, has_phase1, has_phase2.
  destruct (existsb (fun s => negb (si_zero s)) (hc_serum hc)), (existsb pi_orders (hc_perps hc)), (has_spot_liquidations Z), (has_perp_base hc), (has_perp_open_fills hc), (has_perp_positive hc), (has_phase3 hc Z); cbn; intuition congruence.
Qed.
Print Assumptions C60_exclusive.
(** an account with negative health can be liquidated in one of the phases *)
Theorem C60_some_phase hc Z h :
  cache_ok hc -> flags_ok hc -> spot_zip hc = Some Z -> health hc HLiqEnd = Some h -> h < 0 ->
  in_phase1 hc = true \/ in_phase2 hc Z = true \/ in_phase3 hc Z = true.
Proof.
  intros (T & P & N) (F1 & F2) HZ Hh Hneg. unfold in_phase1, in_phase2, in_phase3.
  destruct (has_phase1 hc) eqn:E1; [left; reflexivity|]. destruct (has_phase2 hc Z) eqn:E2; [right; left; reflexivity|]. destruct (has_phase3 hc Z) eqn:E3; [right; right; reflexivity|]. exfalso.
  unfold has_phase1 in E1. apply orb_false_iff in E1 as [E1 E1']. unfold has_phase2 in E2. apply orb_false_iff in E2 as [E2 Ep]. apply orb_false_iff in E2 as [E2 _]. apply orb_false_iff in E2 as [_ Eb].
  unfold has_phase3 in E3. apply orb_false_iff in E3 as [E3 En].
  assert (EX : forall (A : Type) (f : A -> bool) (l : list A), existsb f l = false -> Forall (fun a => f a = false) l).
  { intros A f l. induction l as [|a l IH]; intros E; constructor; cbn [existsb] in E; apply orb_false_iff in E as [Ea El]; [exact Ea|apply IH; exact El]. }
  apply EX in E1, E1', Ep, Eb, E3, En.
  assert (NR : no_reserved hc).
  { unfold no_reserved. rewrite Forall_forall in *. intros s Hs. specialize (E1 s Hs). cbn in E1. apply negb_false_iff in E1. exact (F1 s Hs E1). }
  assert (HP : Forall (fun pi => hupnl pi HLiqEnd = 0) (hc_perps hc)).
  { rewrite Forall_forall in *. intros pi Hpi. specialize (E1' pi Hpi). specialize (Ep pi Hpi). specialize (Eb pi Hpi). specialize (En pi Hpi). destruct (F2 pi Hpi E1') as [B0 A0]. cbn in Ep, Eb, En.
    apply negb_false_iff in Eb. rewrite Eb in Ep, En. cbn [andb] in Ep, En. apply Z.eqb_eq in Eb. apply Z.ltb_ge in Ep, En. assert (Q0 : pi_quote pi = 0) by lia.
    unfold hupnl, uhupnl, execution_case. rewrite B0, A0, Eb, Q0. cbn [Z.add Z.opp Z.mul Z.ltb Z.compare]. change (of_int 0) with 0. cbn [Z.opp]. rewrite !fmul_0_l. reflexivity. }
  destruct (health_no_reserved _ _ _ NR Hh) as (B & HB & ->). unfold spot_zip in HZ. rewrite HB in HZ. cbn [option_map] in HZ. apply some_inj in HZ; subst Z.
  pose proof (balances_map _ _ _ N HB) as EB. subst B. rewrite contributions_map in Hneg.
  assert (TB : forall t, token_balance (hc_perps hc) HLiqEnd t = ti_spot t).
  { intros t. unfold token_balance. enough (sum (map (fun pi => if pi_settle pi =? ti_index t then hupnl pi HLiqEnd else 0) (hc_perps hc)) = 0) by lia. clear -HP.
    induction HP as [|pi P H _ IH]; [reflexivity|]. cbn [map]. rewrite sum_cons, IH, H. destruct (_ =? _); reflexivity. }
  assert (SP : Forall (fun t => 0 <= ti_spot t) (hc_tokens hc)).
  { clear -E3 TB. induction (hc_tokens hc) as [|t L IH]; constructor; cbn [map combine] in E3; inversion E3 as [|? ? H1 H2]; subst.
    - unfold liq_borrow in H1. cbn [fst snd] in H1. rewrite TB in H1. rewrite andb_diag in H1. apply Z.ltb_ge in H1. exact H1.
    - apply IH; exact H2. }
  assert (0 <= sum (map (fun t => contribution t HLiqEnd (token_balance (hc_perps hc) HLiqEnd t)) (hc_tokens hc))); [|lia].
  clear -SP T TB. induction SP as [|t L H _ IH]; [reflexivity|]. inversion T as [|? ? Tt TL]; subst. cbn [map]. rewrite sum_cons, TB. specialize (IH TL).
  assert (0 <= contribution t HLiqEnd (ti_spot t)); [|lia]. unfold contribution. destruct (Z.ltb_spec (ti_spot t) 0); [lia|]. apply fmul_nonneg; [exact H|]. apply (asset_wp_le t HLiqEnd HLiqEnd (stricter_refl _) Tt).
Qed.
Print Assumptions C60_some_phase.
Lemma new_sinfo_flags oo la hb b q m si : new_sinfo oo la hb b q m = Some si -> 0 <= oo_base_free oo -> 0 <= oo_quote_free oo ->
  si_zero si = true -> si_res_base si = 0 /\ si_res_quote si = 0 /\ si_base_as_quote si = 0 /\ si_quote_as_base si = 0.
Proof.
  unfold new_sinfo. destruct (_ || _) eqn:E; [discriminate|]. apply orb_false_iff in E as [E1 E2]. apply Z.ltb_ge in E1, E2. intros H F1 F2. apply some_inj in H; subst si.
  cbn [si_zero si_res_base si_res_quote si_base_as_quote si_quote_as_base]. intros Z0. apply andb_true_iff in Z0 as [Z0 _]. apply andb_true_iff in Z0 as [Z1 Z2]. apply Z.eqb_eq in Z1, Z2.
  replace (oo_base_total oo - oo_base_free oo) with 0 by lia. replace (oo_quote_total oo - oo_quote_free oo) with 0 by lia. change (of_int 0) with 0. rewrite !fmul_0_l. auto.
Qed.
(** caches are built with these flags *)
Theorem C60_flags L O P hc skip :
  build_cache skip L O P = Some hc -> Forall free_ok O ->
  Forall (fun p => pi_orders p = negb (pi_asks p =? 0) || negb (pi_bids p =? 0)) P -> flags_ok hc.
Proof.
  unfold build_cache. destruct (build_tokens skip L) as [T|]; [|discriminate]. destruct (build_serum skip O T) as [[T' R]|] eqn:E; [|discriminate]. destruct (_ && _); [discriminate|].
  intros H F HP. apply some_inj in H; subst hc. split; cbn [hc_serum hc_perps].
  - clear HP. revert T T' R E. induction F as [|s O [F1 F2] FO IH]; intros T T' R E; cbn [build_serum] in E; [apply some_inj in E; injection E as <- <-; constructor|].
    destruct (token_pos T (sin_base s)) as [b|]; [destruct (token_pos T (sin_quote s)) as [q|]|].
    + destruct (new_sinfo _ _ _ _ _ _) as [si|] eqn:Es; [|discriminate]. destruct (build_serum skip O _) as [[T2 R2]|] eqn:E2; [|discriminate]. apply some_inj in E. injection E as <- <-.
      constructor; [|eapply IH; exact E2]. eapply new_sinfo_flags; eassumption.
    + destruct skip; [|discriminate]. eapply IH; eassumption.
    + destruct skip; [|discriminate]. eapply IH; eassumption.
  - eapply Forall_impl; [|exact HP]. cbn. intros p -> Hf. apply orb_false_iff in Hf as [H1 H2]. apply negb_false_iff in H1, H2. apply Z.eqb_eq in H1, H2. auto.
Qed.
Print Assumptions C60_flags.
Example C60_example :
  let hc := mkHC [tok_w 0 80 120 (-20); tok_w 1 80 120 5] [] [perp_w 1 80 90 0 (-5) 0 0] in
  cache_ok hc /\ flags_ok hc /\ (exists h Z, health hc HLiqEnd = Some h /\ h < 0 /\ spot_zip hc = Some Z /\ in_phase3 hc Z = true) /\
  let hc2 := mkHC [tok_w 0 80 120 (-20); tok_w 1 80 120 5] [] [perp_w 1 80 90 7 (-5) 0 0] in
  (exists h Z, health hc2 HLiqEnd = Some h /\ h < 0 /\ spot_zip hc2 = Some Z /\ in_phase2 hc2 Z = true).
Proof.
  cbv zeta. split.
  - split; [repeat (apply Forall_cons || apply Forall_nil); unfold token_ok, prices_ok; zr|]. split.
    + constructor; [|constructor]. unfold perp_ok, prices_ok. zr.
    + cbn [hc_tokens map tok_w ti_index]. repeat constructor; cbn; intuition discriminate.
  - split; [split; [constructor|constructor; [|constructor]; intros _; split; reflexivity]|]. split.
    + eexists. eexists. split; [vm_compute; reflexivity|]. split; [zle|]. split; [vm_compute; reflexivity|]. vm_compute; reflexivity.
    + eexists. eexists. split; [vm_compute; reflexivity|]. split; [zle|]. split; [vm_compute; reflexivity|]. vm_compute; reflexivity.
Qed.

(** ** C61: spot orders *)
(** for every choice, market by market, of all bids or all asks being filled, at the
    prices health assumes, the account is afterwards worth at least its health, up to
    2^-48 per borrowed token *)
Theorem C61_every_outcome hc ty h B fills :
  toks_ok (hc_tokens hc) -> Forall serum_ok (hc_serum hc) ->
  health hc ty = Some h -> balances hc ty false = Some B -> length fills = length (hc_serum hc) ->
  exists B', resolve (hc_tokens hc) ty (hc_serum hc) fills B = Some B' /\
    h * (fone * fone) <= exact_value (hc_tokens hc) ty B' + fone * borrowed B.
Proof. apply health_outcome. Qed.
Print Assumptions C61_every_outcome.
(** and when no two markets share a token, it is the worst outcome, up to rounding *)
Theorem C61_attained hc ty h B :
  toks_ok (hc_tokens hc) -> Forall serum_ok (hc_serum hc) -> NoDup (touched (hc_serum hc)) ->
  health hc ty = Some h -> balances hc ty false = Some B ->
  exists fills B', length fills = length (hc_serum hc) /\ resolve (hc_tokens hc) ty (hc_serum hc) fills B = Some B' /\
    exact_value (hc_tokens hc) ty B' <= h * (fone * fone) + fone * (held B + fone * Z.of_nat (length (hc_tokens hc)) + sum (map (market_slack (hc_tokens hc) ty) (hc_serum hc))).
Proof.
  intros T HS ND Hh HB. unfold health in Hh. rewrite HB in Hh. unfold health_sum, serum_contributions in Hh.
  destruct (reservations _ _ _ _) as [[M R]|] eqn:E; [|discriminate]. apply some_inj in Hh; subst h.
  pose proof (balances_spec _ _ _ _ HB) as (HL & _).
  destruct (outcome_lower (hc_tokens hc) ty B M T _ HS _ _ _ B ND E HL) as (fills & B' & F1 & F2 & F3).
  - intros j _. split; [reflexivity|]. rewrite (reservations_nth _ _ _ _ _ _ (zeros_length _) E j), zeros_nth. lia.
  - exists fills, B'. split; [exact F1|]. split; [exact F2|].
    assert (TO : Forall token_ok (hc_tokens hc)) by (eapply Forall_impl; [|exact T]; cbn; tauto). pose proof (tokens_lower (hc_tokens hc) ty B TO HL). lia.
Qed.
Print Assumptions C61_attained.
(** the prices health assumes for the orders of a market: [x] tokens bought with all [l] tokens locked in orders,
    at the oracle price [pl]/[px] (through double precision: within 2^-51 of the amount and one unit in the last place),
    and not more than the locked tokens at the order price [lim] when that is known *)
Definition converted (l pl px lim x : Z) : Prop :=
  0 <= x /\ 2 ^ 51 * (x * px) <= (2 ^ 51 + 1) * (l * pl) + 2 ^ 51 * px /\
  (l * lim / fone <> 0 -> x * fone <= l * lim) /\
  (l * lim / fone = 0 \/ x < l * lim / fone -> (2 ^ 51 - 1) * (l * pl - fone) - 2 ^ 51 * px <= 2 ^ 51 * (x * px)).
Lemma converted_div l pl px lim o : 0 <= l -> 0 <= pl -> 0 < px -> 0 <= lim -> div_f64 (fmul l pl) px = Some o ->
  converted l pl px lim (if fmul l lim =? 0 then o else Z.min o (fmul l lim)).
Proof.
  intros Hl Hp Hx Hm H. pose proof fone_pos as FP. assert (A : 0 <= fmul l pl) by (apply fmul_nonneg; lia).
  pose proof (div_f64_nonneg _ _ _ A Hx H) as O0. pose proof (div_f64_close _ _ _ A Hx H) as C.
  pose proof (fmul_bounds l pl) as [B1 B2]. pose proof (fmul_bounds l lim) as [D1 D2]. pose proof (fmul_nonneg l lim Hl Hm) as M0.
  unfold converted. change (l * lim / fone) with (fmul l lim). set (k := fmul l lim) in *. set (a := fmul l pl * fone) in *.
  change (2 ^ 51) with 2251799813685248 in *. set (lp := l * pl) in *. clearbody a lp.
  destruct (Z.eqb_spec k 0) as [E|E].
  - set (op := o * px) in *. clearbody op. split; [lia|]. split; [lia|]. split; [lia|]. intros _. lia.
  - split; [lia|]. assert (LE : Z.min o k * px <= o * px) by (apply Z.mul_le_mono_nonneg_r; lia).
    split; [set (op := o * px) in *; set (mp := Z.min o k * px) in *; clearbody op mp; lia|].
    split; [intros _; assert (Z.min o k * fone <= k * fone) by (apply Z.mul_le_mono_nonneg_r; lia); lia|].
    intros [?|X]; [lia|]. replace (Z.min o k) with o by lia. set (op := o * px) in *. clearbody op. lia.
Qed.
Theorem C61_order_prices oo ask bid_inv base quote m si ty q b rb rq :
  0 <= ask -> 0 <= bid_inv -> priced q -> priced b -> new_sinfo oo ask bid_inv base quote m = Some si ->
  reserved_as_base si ty q b = Some rb -> reserved_as_quote si ty q b = Some rq ->
  let locked_base := of_int (oo_base_total oo - oo_base_free oo) in
  let locked_quote := of_int (oo_quote_total oo - oo_quote_free oo) in
  converted locked_quote (asset_price (ti_prices q) ty) (liab_price (ti_prices b) ty) bid_inv (rb - locked_base) /\
  converted locked_base (asset_price (ti_prices b) ty) (liab_price (ti_prices q) ty) ask (rq - locked_quote).
Proof.
  intros HA HB [Pq1 Pq2] [Pb1 Pb2] N RB RQ lb lq. unfold new_sinfo in N.
  destruct ((oo_base_total oo <? oo_base_free oo) || (oo_quote_total oo <? oo_quote_free oo)) eqn:G; [discriminate|].
  apply orb_false_iff in G as [G1 G2]. apply Z.ltb_ge in G1, G2. apply some_inj in N. fold lb in N. fold lq in N. subst si.
  assert (L1 : 0 <= lb) by (unfold lb; pose proof (of_int_le 0 (oo_base_total oo - oo_base_free oo)) as X; change (of_int 0) with 0 in X; lia).
  assert (L2 : 0 <= lq) by (unfold lq; pose proof (of_int_le 0 (oo_quote_total oo - oo_quote_free oo)) as X; change (of_int 0) with 0 in X; lia).
  unfold reserved_as_base in RB. unfold reserved_as_quote in RQ. cbn [si_res_base si_res_quote si_base_as_quote si_quote_as_base] in RB, RQ. clearbody lb lq.
  assert (Q1 : 0 < liab_price (ti_prices b) ty) by (destruct ty; cbn [liab_price]; lia). assert (Q2 : 0 < liab_price (ti_prices q) ty) by (destruct ty; cbn [liab_price]; lia).
  assert (Q3 : 0 <= asset_price (ti_prices b) ty) by (destruct ty; cbn [asset_price]; lia). assert (Q4 : 0 <= asset_price (ti_prices q) ty) by (destruct ty; cbn [asset_price]; lia).
  destruct (div_f64 (fmul lq _) _) as [o1|] eqn:E1; [|discriminate]. destruct (div_f64 (fmul lb _) _) as [o2|] eqn:E2; [|discriminate].
  apply some_inj in RB, RQ. subst rb rq. rewrite !Z.add_simpl_l. split; apply converted_div; assumption.
Qed.
Print Assumptions C61_order_prices.
Example C61_order_prices_example : exists si rb rq, new_sinfo (mkOO 1 6 2 32 0) (4 * fone) (fone / 3) 1 0 7 = Some si /\
  reserved_as_base si HInit (tok_w 0 100 100 0) (tok_w 1 80 120 0) = Some rb /\ reserved_as_quote si HInit (tok_w 0 100 100 0) (tok_w 1 80 120 0) = Some rq /\
  of_int 14 < rb < of_int 15 + 1 /\ rq = of_int 35.
Proof.
  do 3 eexists. split; [vm_compute; reflexivity|]. split; [vm_compute; reflexivity|]. split; [vm_compute; reflexivity|].
  split; [split; apply Z.ltb_lt; vm_compute; reflexivity|vm_compute; reflexivity].
Qed.
Example C61_example : toks_ok (hc_tokens example_cache) /\ Forall serum_ok (hc_serum example_cache) /\ NoDup (touched (hc_serum example_cache)) /\
  exists h B B1 B2, health example_cache HInit = Some h /\ balances example_cache HInit false = Some B /\
    resolve (hc_tokens example_cache) HInit (hc_serum example_cache) [true] B = Some B1 /\ resolve (hc_tokens example_cache) HInit (hc_serum example_cache) [false] B = Some B2 /\
    h * (fone * fone) <= exact_value (hc_tokens example_cache) HInit B2 + fone * borrowed B /\
    exact_value (hc_tokens example_cache) HInit B2 + fone * fone * fone < exact_value (hc_tokens example_cache) HInit B1.
Proof.
  split; [apply example_ok|]. split; [apply example_ok|]. split; [apply example_ok|].
  eexists. eexists. eexists. eexists. split; [vm_compute; reflexivity|]. split; [vm_compute; reflexivity|]. split; [vm_compute; reflexivity|]. split; [vm_compute; reflexivity|]. split; zle.
Qed.
