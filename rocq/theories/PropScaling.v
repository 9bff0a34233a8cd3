(** C84: init weights scaled by the deposits and borrows of a token. *)
From Coq Require Import List ZArith Lia Bool.
From Verif Require Import Interest Bank BankFacts Health HealthSpec HealthDiv HealthFacts Scaling ScalingFacts PropInterest PropBank PropTokenLiq Fixed.
Import ListNotations.
Open Scope Z_scope.

(** Scaling never raises the asset weight.  It starts when the value [V] of all deposits and of tokens in spot orders passes [start]
    (both in units of 2^-96), and then keeps the collateral counted for all deposits at [start] times the init weight, up to a part
    in 2^49. *)
Theorem C84_asset_weight c b price start w :
  wc_dep_start c = Some start -> 0 <= start -> 0 <= wc_init_aw c -> 0 <= native_deposits b -> 0 <= b_serum b -> 0 <= price ->
  scaled_init_asset_weight c b price = Some w ->
  let V := (native_deposits b + of_int (b_serum b)) * price in
  0 <= w <= wc_init_aw c /\
  ((2 ^ 49 + 1) * V <= 2 ^ 49 * start -> w = wc_init_aw c) /\
  2 ^ 49 * (w * V) <= wc_init_aw c * ((2 ^ 49 + 1) * start + 2 * V) /\
  wc_init_aw c * ((2 ^ 49 - 1) * Z.min start V - 2 * V) <= 2 ^ 49 * ((w + 1) * V).
Proof.
  intros D S A N B P H. cbv zeta. unfold scaled_init_asset_weight in H. rewrite D in H.
  pose proof (deposits_quote_err b price N B P) as E. cbv zeta in E. set (V := (native_deposits b + of_int (b_serum b)) * price) in *.
  assert (V0 : 0 <= V). { unfold V. assert (0 <= of_int (b_serum b)) by (unfold of_int; pose proof fone_pos; nia). nia. }
  set (aw := wc_init_aw c) in *. set (q := deposits_quote b price) in *. clearbody V q aw. clear D N B P.
  destruct (Z.leb_spec q start) as [L|L].
  - apply some_inj in H. subst w. split; [lia|]. split; [reflexivity|].
    split.
    + assert (T : 2 ^ 49 * V <= (2 ^ 49 + 1) * start + 2 * V) by (change (2 ^ 50) with (2 * 2 ^ 49) in E; assert (0 < 2 ^ 49) by reflexivity; set (k := 2 ^ 49) in *; clearbody k; nia).
      apply (Z.mul_le_mono_nonneg_l _ _ aw A) in T. lia.
    + assert (T : (2 ^ 49 - 1) * Z.min start V - 2 * V <= 2 ^ 49 * V) by (assert (64 < 2 ^ 49) by reflexivity; set (k := 2 ^ 49) in *; clearbody k; destruct (Z.min_spec start V) as [[? ->]|[? ->]]; nia).
      apply (Z.mul_le_mono_nonneg_l _ _ aw A) in T. lia.
  - destruct (quot_fx start q) as [r|] eqn:Q; [|discriminate]. apply some_inj in H. subst w.
    assert (Q0 : 0 < q) by lia. pose proof (quot_fx_nonneg _ _ _ S Q0 Q) as R0. pose proof (quot_fx_le1 start q r ltac:(lia) Q0 Q) as R1.
    pose proof (quot_fx_bounds _ _ V _ S Q0 E Q) as [B1 B2]. pose proof (fmul_bounds aw r) as F. pose proof fone_pos as FP. pose proof (fmul_nonneg aw r A R0) as F0.
    split. { split; [exact F0|]. nia. }
    split. { intros T. exfalso. change (2 ^ 50) with (2 * 2 ^ 49) in E. assert (K : 64 < 2 ^ 49) by reflexivity. set (k := 2 ^ 49) in *. clearbody k. clear - T E L V0 K S Q0. nia. }
    set (w := fmul aw r) in *. clearbody w. change (2 ^ 49) with (2 * fone) at 1 4. split.
    + assert (X : 2 * fone * (w * V) <= aw * (2 * r * V)) by (replace (2 * fone * (w * V)) with (2 * V * (w * fone)) by ring; nia).
      apply (Z.mul_le_mono_nonneg_l _ _ aw A) in B2. lia.
    + assert (X : aw * (2 * r * V) <= 2 * fone * ((w + 1) * V)) by (replace (2 * fone * ((w + 1) * V)) with (2 * V * (w * fone + fone)) by ring; nia).
      apply (Z.mul_le_mono_nonneg_l _ _ aw A) in B1.
      assert (Y : (2 ^ 49 - 1) * Z.min start V - 2 * V <= (2 ^ 49 - 1) * start - 2 * V) by (assert (64 < 2 ^ 49) by reflexivity; nia).
      apply (Z.mul_le_mono_nonneg_l _ _ aw A) in Y. lia.
Qed.
Print Assumptions C84_asset_weight.

(** Scaling never lowers the liability weight.  It starts when the value [V] of all borrows passes [start], and then makes the weight
    proportional to it. *)
Theorem C84_liab_weight c b price start w :
  wc_bor_start c = Some start -> 0 < start -> 0 <= wc_init_lw c -> 0 <= native_borrows b -> 0 <= price ->
  scaled_init_liab_weight c b price = Some w ->
  let V := native_borrows b * price in
  wc_init_lw c <= w /\
  ((2 ^ 49 + 1) * V <= 2 ^ 49 * start -> w = wc_init_lw c) /\
  2 ^ 49 * (w * start) <= wc_init_lw c * ((2 ^ 49 + 3) * Z.max start V + 2 * start) /\
  wc_init_lw c * ((2 ^ 49 - 3) * V - 2 * start) <= 2 ^ 49 * ((w + 1) * start).
Proof.
  intros D S A N P H. cbv zeta. unfold scaled_init_liab_weight in H. rewrite D in H.
  pose proof (borrows_quote_err b price N P) as E. cbv zeta in E. set (V := native_borrows b * price) in *.
  assert (V0 : 0 <= V) by (unfold V; nia).
  set (lw := wc_init_lw c) in *. set (q := borrows_quote b price) in *. clearbody V q lw. clear D N P. change (2 ^ 50) with (2 * 2 ^ 49) in E.
  assert (K : 64 < 2 ^ 49) by reflexivity.
  destruct (Z.leb_spec q start) as [L|L].
  - apply some_inj in H. subst w. split; [lia|]. split; [reflexivity|]. split.
    + assert (T : 2 ^ 49 * start <= (2 ^ 49 + 3) * Z.max start V + 2 * start) by (set (k := 2 ^ 49) in *; clearbody k; destruct (Z.max_spec start V) as [[? ->]|[? ->]]; nia).
      apply (Z.mul_le_mono_nonneg_l _ _ lw A) in T. lia.
    + assert (T : (2 ^ 49 - 3) * V - 2 * start <= 2 ^ 49 * start) by (set (k := 2 ^ 49) in *; clearbody k; nia).
      apply (Z.mul_le_mono_nonneg_l _ _ lw A) in T. lia.
  - destruct (Z.eqb_spec start 0); [lia|]. destruct (quot_fx q start) as [r|] eqn:Q; [|discriminate]. apply some_inj in H. subst w.
    assert (Q0 : 0 < q) by lia. pose proof (quot_fx_nonneg q start r ltac:(lia) S Q) as R0. pose proof (quot_fx_ge1 q start r ltac:(lia) S Q) as R1.
    pose proof (quot_fx_bounds q start start r ltac:(lia) S ltac:(lia) Q) as [B1 B2]. pose proof (fmul_bounds lw r) as F. pose proof fone_pos as FP. pose proof (fmul_nonneg lw r A R0) as F0.
    split. { assert (lw * fone <= lw * r) by nia. apply (Z.mul_le_mono_pos_r _ _ fone FP). assert (X : fmul lw r * fone + fone > lw * fone) by lia.
      assert (X2 : (fmul lw r + 1) * fone > lw * fone) by lia. assert (lw < fmul lw r + 1) by nia. nia. }
    split. { intros T. exfalso. set (k := 2 ^ 49) in *. clearbody k. clear - T E L V0 K S Q0. nia. }
    set (w := fmul lw r) in *. clearbody w. change (2 ^ 49) with (2 * fone) at 1 4. split.
    + assert (X : 2 * fone * (w * start) <= lw * (2 * r * start)) by (replace (2 * fone * (w * start)) with (2 * start * (w * fone)) by ring; nia).
      assert (Y : (2 ^ 49 + 1) * q + 2 * start <= (2 ^ 49 + 3) * Z.max start V + 2 * start).
      { set (k := 2 ^ 49) in *. clearbody k. assert (q * (2 * k) <= (2 * k + 1) * Z.max start V) by nia. assert (0 < Z.max start V) by lia. set (m := Z.max start V) in *. clearbody m. assert (q <= 2 * m) by nia. nia. }
      apply (Z.mul_le_mono_nonneg_l _ _ lw A) in B2, Y. lia.
    + assert (X : lw * (2 * r * start) <= 2 * fone * ((w + 1) * start)) by (replace (2 * fone * ((w + 1) * start)) with (2 * start * (w * fone + fone)) by ring; nia).
      assert (Y : (2 ^ 49 - 3) * V - 2 * start <= (2 ^ 49 - 1) * q - 2 * start).
      { set (k := 2 ^ 49) in *. clearbody k. assert (V <= 2 * q) by nia. nia. }
      apply (Z.mul_le_mono_nonneg_l _ _ lw A) in B1, Y. lia.
Qed.
Print Assumptions C84_liab_weight.

(** With no start value nothing is scaled. *)
Theorem C84_unscaled c b price :
  (wc_dep_start c = None -> scaled_init_asset_weight c b price = Some (wc_init_aw c)) /\
  (wc_bor_start c = None -> scaled_init_liab_weight c b price = Some (wc_init_lw c)).
Proof. split; intros E; [unfold scaled_init_asset_weight|unfold scaled_init_liab_weight]; rewrite E; reflexivity. Qed.
Print Assumptions C84_unscaled.

(** More deposits, more tokens in orders, or a higher price never raise the asset weight; more borrows or a higher price never lower
    the liability weight. *)
Theorem C84_direction c b b' price price' :
  0 <= wc_init_aw c -> 0 <= wc_init_lw c -> 0 <= price <= price' ->
  (forall st, wc_dep_start c = Some st -> 0 <= st) -> (forall st, wc_bor_start c = Some st -> 0 <= st) ->
  (forall w w', 0 <= native_deposits b <= native_deposits b' -> 0 <= b_serum b <= b_serum b' ->
     scaled_init_asset_weight c b price = Some w -> scaled_init_asset_weight c b' price' = Some w' -> w' <= w) /\
  (forall w w', 0 <= native_borrows b <= native_borrows b' -> wc_init_lw c < 2 ^ 127 ->
     scaled_init_liab_weight c b price = Some w -> scaled_init_liab_weight c b' price' = Some w' -> w <= w').
Proof.
  intros A L P SD SB. split; intros w w' X.
  - intros Y H H'. unfold scaled_init_asset_weight in H, H'. destruct (wc_dep_start c) as [st|]; [|apply some_inj in H, H'; lia]. specialize (SD st eq_refl).
    pose proof (deposits_quote_mono b b' price price' X Y P) as [Q0 Q]. set (q := deposits_quote b price) in *. set (q' := deposits_quote b' price') in *. clearbody q q'.
    destruct (Z.leb_spec q st), (Z.leb_spec q' st); try lia.
    + apply some_inj in H, H'; lia.
    + apply some_inj in H. subst w. destruct (quot_fx st q') as [r|] eqn:Q'; [|discriminate]. apply some_inj in H'. subst w'.
      pose proof (quot_fx_nonneg st q' r SD ltac:(lia) Q'). pose proof (quot_fx_le1 st q' r ltac:(lia) ltac:(lia) Q'). pose proof (fmul_bounds (wc_init_aw c) r). pose proof fone_pos. nia.
    + destruct (quot_fx st q') as [r'|] eqn:Q'; [|discriminate]. destruct (quot_fx st q) as [r|] eqn:Q1; [|discriminate]. apply some_inj in H, H'. subst w w'.
      pose proof (quot_fx_mono st q' st q r' r ltac:(lia) ltac:(lia) Q' Q1) as M. unfold fmul. apply Z.div_le_mono; [apply fone_pos|]. apply Z.mul_le_mono_nonneg_l; assumption.
  - intros T H H'. unfold scaled_init_liab_weight in H, H'. destruct (wc_bor_start c) as [st|]; [|apply some_inj in H, H'; lia]. specialize (SB st eq_refl).
    pose proof (borrows_quote_mono b b' price price' X P) as [Q0 Q]. set (q := borrows_quote b price) in *. set (q' := borrows_quote b' price') in *. clearbody q q'.
    destruct (Z.leb_spec q st), (Z.leb_spec q' st); try lia.
    + apply some_inj in H, H'; lia.
    + apply some_inj in H. subst w. destruct (Z.eqb_spec st 0) as [->|NZ]; [apply some_inj in H'; subst w'; unfold fx_max; lia|].
      destruct (quot_fx q' st) as [r|] eqn:Q'; [|discriminate]. apply some_inj in H'. subst w'.
      pose proof (quot_fx_ge1 q' st r ltac:(lia) ltac:(lia) Q'). pose proof (fmul_bounds (wc_init_lw c) r). pose proof fone_pos. nia.
    + destruct (Z.eqb_spec st 0) as [->|NZ]; [apply some_inj in H, H'; subst w w'; apply Z.le_refl|].
      destruct (quot_fx q' st) as [r'|] eqn:Q'; [|discriminate]. destruct (quot_fx q st) as [r|] eqn:Q1; [|discriminate]. apply some_inj in H, H'. subst w w'.
      pose proof (quot_fx_mono q st q' st r r' ltac:(lia) ltac:(lia) Q1 Q') as M. unfold fmul. apply Z.div_le_mono; [apply fone_pos|]. apply Z.mul_le_mono_nonneg_l; assumption.
Qed.
Print Assumptions C84_direction.

(** Building the cache scales both weights at the higher of the two prices, updating it scales the asset weight at the lower one: the
    updated weight is never below the built one, and equal when the prices are. *)
Theorem C84_rebuilt c b pr n t w : 0 <= wc_init_aw c -> 0 <= wc_init_lw c -> (forall st, wc_dep_start c = Some st -> 0 <= st) -> (forall st, wc_bor_start c = Some st -> 0 <= st) ->
  0 <= native_deposits b -> 0 <= b_serum b -> 0 <= pr_oracle pr -> 0 <= pr_stable pr -> token_info c b pr n = Some t -> adjusted_weights c b pr = Some w ->
  ti_scaled_aw t <= fst w /\ ti_scaled_lw t = snd w /\ (pr_oracle pr = pr_stable pr -> ti_scaled_aw t = fst w).
Proof.
  intros A LW SD SB D S P1 P2 T W. unfold token_info in T. unfold adjusted_weights in W. destruct (scaled_init_asset_weight c b (liab_price pr HInit)) as [a1|] eqn:E1; [|discriminate].
  destruct (scaled_init_liab_weight c b (liab_price pr HInit)) as [l1|]; [|discriminate]. destruct (scaled_init_asset_weight c b (asset_price pr HInit)) as [a2|] eqn:E2; [|discriminate].
  apply some_inj in T, W. subst t w. cbn [ti_scaled_aw ti_scaled_lw fst snd]. split; [|split; [reflexivity|]].
  - assert (PP : 0 <= asset_price pr HInit <= liab_price pr HInit) by (cbn [asset_price liab_price]; lia).
    eapply (proj1 (C84_direction c b b _ _ A LW PP SD SB)); [split; [exact D|reflexivity]|split; [exact S|reflexivity]|exact E2|exact E1].
  - intros E. assert (X : liab_price pr HInit = asset_price pr HInit) by (cbn [asset_price liab_price]; lia). rewrite X, E2 in E1. apply some_inj in E1. auto.
Qed.
Print Assumptions C84_rebuilt.

(** 2000 deposited and 500 in orders at price 1, deposits scaled from 1000 on, borrows of 300 scaled from 100 on: 0.8 becomes 0.32 and 1.2 becomes 3.6 *)
Example C84_example : exists aw lw,
  scaled_init_asset_weight (mkWC 0 (pct 90) (pct 80) (pct 110) (pct 120) (Some (of_int 1000 * fone)) (Some (of_int 100 * fone)) true)
    (set_serum (set_totals ex_bank (of_int 2000 / 1000000) (of_int 300 / 1000000) 0 0) 500) fone = Some aw /\
  scaled_init_liab_weight (mkWC 0 (pct 90) (pct 80) (pct 110) (pct 120) (Some (of_int 1000 * fone)) (Some (of_int 100 * fone)) true)
    (set_serum (set_totals ex_bank (of_int 2000 / 1000000) (of_int 300 / 1000000) 0 0) 500) fone = Some lw /\
  to_int (1000 * aw) = 320 /\ to_int (1000 * lw) = 3599.
Proof. eexists. eexists. split; [vm_compute; reflexivity|]. split; [vm_compute; reflexivity|]. split; vm_compute; reflexivity. Qed.
