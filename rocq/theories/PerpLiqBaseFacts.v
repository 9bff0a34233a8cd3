(** Lemmas for PropPerpLiqBase: what the five steps move. *)
From Coq Require Import List ZArith Lia Bool.
From Verif Require Import OrderTree Keys PerpTypes SettleLimit PerpMoney Interest Bank Health HealthSpec HealthFacts HealthMore LiqState TokenLiq PerpLiqBase Fixed.
Import ListNotations.
Open Scope Z_scope.

Section Steps.
Context (t : tinfo) (base max_base : Z) (max_pnl L g w : fx).
Notation awp := (asset_wp t HLiqEnd).
Notation lwp := (liab_wp t HLiqEnd).
Notation C := (contribution t HLiqEnd).
Notation V := (worth (asset_wp t HLiqEnd) (liab_wp t HLiqEnd)).
Hypothesis (Hw : 0 <= awp <= lwp).

Lemma V_mono x y : x <= y -> V x <= V y.
Proof. intros H. unfold worth. destruct (Z.ltb_spec x 0), (Z.ltb_spec y 0); nia. Qed.
Lemma V_lip x k : 0 <= k -> V (x + k) <= V x + k * lwp.
Proof. intros H. unfold worth. destruct (Z.ltb_spec x 0), (Z.ltb_spec (x + k) 0); nia. Qed.
Lemma V_lip_le x y k : y <= x + k -> 0 <= k -> V y <= V x + k * lwp.
Proof. intros H K. eapply Z.le_trans; [apply V_mono, H|apply V_lip, K]. Qed.
Lemma CV x : C x * fone <= V x < C x * fone + fone.
Proof. apply contribution_worth. Qed.
Lemma C_mono x y : x <= y -> C x <= C y.
Proof. intros H. pose proof (V_mono _ _ H). pose proof (CV x). pose proof (CV y). pose proof fone_pos. nia. Qed.

(** the state is consistent with where it started *)
Definition same_h (x y : track) : Prop := tk_h y - C (tk_s y) = tk_h x - C (tk_s x).

(** how much settle token is needed for health zero *)
Lemma need_facts h s n : spot_amount_given h s awp lwp = Some n ->
  0 <= n /\ (0 <= h -> n = 0) /\
  (h < 0 -> - fone < V s - V (s + n) - h * fone < Z.max fone lwp).
Proof.
  intros H. destruct (Z.ltb_spec h 0) as [N|N].
  - apply given_spec in H as [H1 H2]; [|lia|exact N]. rewrite (Z.max_r awp lwp) in H2 by lia. split; [exact H1|]. split; [lia|auto].
  - unfold spot_amount_given, spot_amount_taken in H. destruct (Z.leb_spec (- h) 0); [|lia]. apply some_inj in H. subst n.
    split; [lia|]. split; [auto|lia].
Qed.

(** the end of a step that moved the balance from [s] to [s'] *)
Lemma over h s s' n k : h < 0 -> spot_amount_given h s awp lwp = Some n -> s' <= s + n + k -> 0 <= k ->
  (h - C s + C s') * fone < 2 * fone + k * lwp.
Proof.
  intros Hh Hn Hs Hk. apply need_facts in Hn as (N0 & _ & N). specialize (N Hh).
  pose proof (V_lip_le (s + n) s' k Hs Hk). pose proof (CV s). pose proof (CV s'). nia.
Qed.
Lemma under h s s' n k : h < 0 -> spot_amount_given h s awp lwp = Some n -> s + n <= s' + k -> 0 <= k ->
  - (Z.max fone lwp + fone + k * lwp) < (h - C s + C s') * fone.
Proof.
  intros Hh Hn Hs Hk. apply need_facts in Hn as (N0 & _ & N). specialize (N Hh).
  pose proof (V_lip_le s' (s + n) k Hs Hk). pose proof (CV s). pose proof (CV s'). nia.
Qed.

Definition room (x : track) : Z := Z.min (Z.abs base) (Z.abs max_base) - tk_red x.
(** what reducing the base position does *)
Lemma reduce_facts limit ex ac x y : 0 <= limit -> 0 <= ex -> 0 <= room x -> reduce_base t base max_base limit ex ac L x = Some y ->
  exists lots need, 0 < ex /\ 0 <= lots <= room x /\ tk_red y = tk_red x + lots /\ tk_pnl y = tk_pnl x /\ tk_u y = tk_u x + L * lots /\
    tk_s y = tk_s x + ac * lots /\ same_h x y /\ (0 <= tk_h x -> lots = 0) /\
    spot_amount_given (tk_h x) (tk_s x) awp lwp = Some need /\ need <= FX_MAX /\
    (0 < lots -> (lots - 1) * ex < Z.min need limit) /\
    (lots < room x -> Z.min need limit * fone - ex < lots * ex * fone).
Proof.
  intros Hl He0 Hr. unfold reduce_base. destruct (spot_amount_given _ _ _ _) as [need|] eqn:En; [|discriminate].
  destruct (Z.leb_spec need FX_MAX) as [Nm|Nm]; cbn [guard]; [|discriminate].
  unfold cdiv. destruct (Z.eqb_spec ex 0); [discriminate|]. assert (He : 0 < ex) by lia. set (m := Z.min need limit). unfold chk_i64. destruct (in_i64b _); [|discriminate].
  intros H. apply some_inj in H. subst y. cbn [tk_red tk_pnl tk_u tk_h tk_s]. rewrite !fmul_int_r.
  pose proof (need_facts _ _ _ En) as (N0 & N1 & _).
  assert (Hm : 0 <= m) by (unfold m; lia). pose proof (Fixed.fdiv_pos_bounds m ex Hm He) as Q. pose proof (fdiv_nonneg m ex Hm He) as Q0.
  pose proof (ceil_int_bounds (fdiv m ex)) as K. unfold of_int in K. set (n1 := ceil_int (fdiv m ex)) in *. pose proof fone_pos as FP.
  assert (Hn1 : 0 <= n1) by nia.
  set (lots := Z.max (Z.min (Z.min n1 (Z.abs base - tk_red x)) (Z.abs max_base - tk_red x)) 0).
  assert (HL : lots = Z.min n1 (room x)) by (unfold lots, room in *; lia). clearbody lots.
  exists lots, need. split; [exact He|]. split; [lia|]. do 4 (split; [reflexivity|]). split; [unfold same_h; cbn [tk_h tk_s]; lia|].
  split. { intros Hh. specialize (N1 Hh). assert (m = 0) by (unfold m; lia). assert (fdiv m ex = 0) by nia. nia. }
  split; [reflexivity|]. split; [exact Nm|]. split.
  - intros P. assert (lots <= n1) by lia. assert ((lots - 1) * fone < fdiv m ex) by nia.
    assert ((lots - 1) * fone * ex < m * fone) by nia. nia.
  - intros P. assert (lots = n1) by lia. subst lots. rewrite H. nia.
Qed.

(** what settling pnl does *)
Lemma settle_facts k x y : 0 < k -> 0 <= tk_u x -> tk_pnl x <= max_pnl -> settle_step t max_pnl k x = Some y ->
  exists st need, 0 <= st /\ st <= tk_u x /\ st <= max_pnl - tk_pnl x /\ tk_red y = tk_red x /\ tk_pnl y = tk_pnl x + st /\ tk_u y = tk_u x - st /\
    tk_s y = tk_s x + fmul st k /\ same_h x y /\ (0 <= tk_h x -> st = 0) /\
    spot_amount_given (tk_h x) (tk_s x) awp lwp = Some need /\ fmul st k <= need /\
    (st < tk_u x -> st < max_pnl - tk_pnl x -> need * fone - k < st * k).
Proof.
  intros Hk Hu Hp. unfold settle_step. destruct (spot_amount_given _ _ _ _) as [need|] eqn:En; [|discriminate].
  unfold cdiv. destruct (Z.eqb_spec k 0); [lia|].
  intros H. apply some_inj in H. subst y. cbn [tk_red tk_pnl tk_u tk_h tk_s].
  pose proof (need_facts _ _ _ En) as (N0 & N1 & _).
  pose proof (Fixed.fdiv_pos_bounds need k N0 Hk) as Q. pose proof (fdiv_nonneg need k N0 Hk) as Q0. set (q := fdiv need k) in *.
  set (st := Z.max (Z.min (Z.min q (max_pnl - tk_pnl x)) (tk_u x)) 0).
  assert (HS : st = Z.min q (Z.min (max_pnl - tk_pnl x) (tk_u x))) by (unfold st; lia). clearbody st. pose proof fone_pos as FP.
  exists st, need. do 3 (split; [lia|]). do 4 (split; [reflexivity|]). split; [unfold same_h; cbn [tk_h tk_s]; lia|].
  split. { intros Hh. specialize (N1 Hh). assert (q = 0) by nia. lia. }
  split; [reflexivity|]. split.
  - pose proof (fmul_bounds st k) as FB. assert (st * k <= need * fone) by nia. nia.
  - intros P1 P2. assert (st = q) by lia. subst st. rewrite H. lia.
Qed.

(** ** the balance that health really counts *)
Definition weigh (u : fx) : fx := if 0 <? u then fmul w u else u.
Lemma weigh_bounds u : 0 <= w <= fone -> (0 <= u -> w * u - fone < weigh u * fone <= w * u) /\ (u <= 0 -> weigh u = u).
Proof.
  intros W. unfold weigh. destruct (Z.ltb_spec 0 u); (split; [|intros; try lia]); intros.
  - pose proof (fmul_bounds w u). lia.
  - assert (u = 0) by lia. subst. pose proof fone_pos. lia.
Qed.
Lemma gap u1 r st2 st4 red d k : 0 <= w <= fone -> 0 <= L -> 0 <= u1 -> 0 <= r <= red -> 0 <= st2 -> 0 <= st4 -> -1 <= d <= red ->
  0 <= u1 + L * r - st2 - st4 -> (st2 = 0 /\ st4 = 0 \/ k = g - w) ->
  let x := weigh (u1 + L * r - st2 - st4 + d) - weigh u1 + fmul (st2 + st4) g in
  let y := fmul st2 k + fmul L w * r + fmul st4 k in
  y - 4 <= x <= y + 2 * red + 4.
Proof.
  intros W HL U1 R S2 S4 D UY K. cbv zeta. set (uy := u1 + L * r - st2 - st4) in *. pose proof fone_pos as FP.
  pose proof (weigh_bounds u1 W) as [A1 _]. specialize (A1 U1). pose proof (weigh_bounds (uy + d) W) as [A2 A3].
  pose proof (fmul_bounds (st2 + st4) g) as A4. pose proof (fmul_bounds L w) as A5.
  assert (A6 : st2 * k + st4 * k - 2 * fone < (fmul st2 k + fmul st4 k) * fone <= st2 * k + st4 * k).
  { pose proof (fmul_bounds st2 k). pose proof (fmul_bounds st4 k). lia. }
  assert (A7 : (st2 + st4) * g - (st2 * k + st4 * k) = w * (st2 + st4)).
  { destruct K as [[-> ->]| ->]; ring. }
  assert (A8 : L * w * r - fone * r <= fmul L w * r * fone <= L * w * r) by nia.
  assert (A9 : w * uy = w * u1 + L * w * r - w * (st2 + st4)) by (unfold uy; ring).
  assert (B : w * uy - 2 * fone <= weigh (uy + d) * fone <= w * uy + fone * red).
  { destruct (Z.leb_spec 0 (uy + d)) as [P|P].
    - specialize (A2 P). assert (w * (uy + d) = w * uy + w * d) by ring. assert (- fone <= w * d <= fone * red) by nia. lia.
    - rewrite A3 by lia. assert (uy + d = -1) by lia. assert (uy = 0) by lia. nia. }
  clearbody uy. set (a := weigh (uy + d)) in *. set (b := weigh u1) in *. set (c := fmul (st2 + st4) g) in *.
  set (e := fmul st2 k + fmul st4 k) in *. set (f := fmul L w * r) in *.
  replace (fmul st2 k + f + fmul st4 k) with (e + f) by (unfold e; lia). clearbody a b c e f. nia.
Qed.

(** ** the steps *)
Definition inv (x : track) : Prop := 0 <= room x /\ 0 <= tk_red x /\ 0 <= tk_pnl x <= max_pnl.
Definition reduced (limit ex ac : fx) (x y : track) : Prop :=
  exists lots need, 0 < ex /\ 0 <= lots <= room x /\ tk_red y = tk_red x + lots /\ tk_pnl y = tk_pnl x /\ tk_u y = tk_u x + L * lots /\
    tk_s y = tk_s x + ac * lots /\ same_h x y /\ (0 <= tk_h x -> lots = 0) /\
    spot_amount_given (tk_h x) (tk_s x) awp lwp = Some need /\ need <= FX_MAX /\
    (0 < lots -> (lots - 1) * ex < Z.min need limit) /\
    (lots < room x -> Z.min need limit * fone - ex < lots * ex * fone).
Definition settled (k : fx) (x y : track) : Prop :=
  exists st need, 0 <= st /\ st <= tk_u x /\ st <= max_pnl - tk_pnl x /\ tk_red y = tk_red x /\ tk_pnl y = tk_pnl x + st /\ tk_u y = tk_u x - st /\
    tk_s y = tk_s x + fmul st k /\ same_h x y /\ (0 <= tk_h x -> st = 0) /\
    spot_amount_given (tk_h x) (tk_s x) awp lwp = Some need /\ fmul st k <= need /\
    (st < tk_u x -> st < max_pnl - tk_pnl x -> need * fone - k < st * k).
Lemma reduced_inv limit ex ac x y : inv x -> reduced limit ex ac x y -> inv y.
Proof. intros (I1 & I2 & I3) (lots & need & _ & H1 & H2 & H3 & _). unfold inv, room in *. rewrite H2, H3. lia. Qed.
Lemma settled_inv k x y : inv x -> settled k x y -> inv y.
Proof. intros (I1 & I2 & I3) (st & need & H1 & H2 & H3 & H4 & H5 & _). unfold inv, room in *. rewrite H4, H5. lia. Qed.
Lemma step1_facts x y : 0 < L -> inv x -> step1 t base max_base L x = Some y ->
  inv y /\ (0 <= tk_u x /\ y = x \/ tk_u x < 0 /\ reduced (- tk_u x) L L x y).
Proof.
  intros HL I. unfold step1. destruct (Z.ltb_spec (tk_u x) 0) as [U|U]; intros H.
  - apply reduce_facts in H; [|lia|lia|apply I]. split; [exact (reduced_inv _ _ _ _ _ I H)|right; auto].
  - apply some_inj in H. subst y. auto.
Qed.
Lemma step24_facts x y : inv x -> step24 t max_pnl g w x = Some y ->
  inv y /\ ((tk_u x < 0 \/ g <= w) /\ y = x \/ (0 <= tk_u x /\ w < g) /\ settled (g - w) x y).
Proof.
  intros I. unfold step24. destruct (Z.leb_spec 0 (tk_u x)) as [U|U]; [|intros H; apply some_inj in H; subst y; auto].
  destruct (Z.ltb_spec w g) as [G|G]; cbn [andb]; intros H; [|apply some_inj in H; subst y; auto].
  apply settle_facts in H; [|lia|exact U|apply I]. split; [exact (settled_inv _ _ _ I H)|auto].
Qed.
Lemma step3_facts x y : 0 < L -> 0 <= g -> inv x -> step3 t base max_base max_pnl L g w x = Some y ->
  inv y /\ ((tk_u x < 0 \/ tk_pnl x = max_pnl) /\ y = x \/ (0 <= tk_u x /\ tk_pnl x < max_pnl) /\ reduced (max_pnl - tk_pnl x) (fmul L g) (fmul L w) x y).
Proof.
  intros HL Hg I. unfold step3. destruct (Z.leb_spec 0 (tk_u x)) as [U|U]; [|intros H; apply some_inj in H; subst y; auto].
  destruct (Z.ltb_spec (tk_pnl x) max_pnl) as [G|G]; cbn [andb]; intros H.
  - apply reduce_facts in H; [|lia|apply fmul_nonneg; lia|apply I]. split; [exact (reduced_inv _ _ _ _ _ I H)|auto].
  - apply some_inj in H; subst y. split; [exact I|]. left. split; [|reflexivity]. right. destruct I as (_ & _ & I). lia.
Qed.
Lemma step5_facts x y : 0 < L -> 0 <= w -> inv x -> step5 t base max_base L w x = Some y ->
  inv y /\ ((MINUS_HALF <= tk_h x \/ w = 0) /\ y = x \/ (tk_h x < MINUS_HALF /\ 0 < w) /\ reduced FX_MAX (fmul L w) (fmul L w) x y).
Proof.
  intros HL Hg I. unfold step5. destruct (Z.ltb_spec (tk_h x) MINUS_HALF) as [U|U]; [|intros H; apply some_inj in H; subst y; auto].
  destruct (Z.ltb_spec 0 w) as [G|G]; cbn [andb]; intros H.
  - apply reduce_facts in H; [|vm_compute; discriminate|apply fmul_nonneg; lia|apply I]. split; [exact (reduced_inv _ _ _ _ _ I H)|auto].
  - apply some_inj in H; subst y. split; [exact I|]. left. split; [|reflexivity]. lia.
Qed.

(** the course of the steps *)
Record course (x0 x1 x2 x3 x4 y : track) : Prop := mkCourse {
  co_inv : inv x0 /\ inv x1 /\ inv x2 /\ inv x3 /\ inv x4 /\ inv y;
  co_1 : 0 <= tk_u x0 /\ x1 = x0 \/ tk_u x0 < 0 /\ reduced (- tk_u x0) L L x0 x1;
  co_2 : (tk_u x1 < 0 \/ g <= w) /\ x2 = x1 \/ (0 <= tk_u x1 /\ w < g) /\ settled (g - w) x1 x2;
  co_3 : (tk_u x2 < 0 \/ tk_pnl x2 = max_pnl) /\ x3 = x2 \/
         (0 <= tk_u x2 /\ tk_pnl x2 < max_pnl) /\ reduced (max_pnl - tk_pnl x2) (fmul L g) (fmul L w) x2 x3;
  co_4 : (tk_u x3 < 0 \/ g <= w) /\ x4 = x3 \/ (0 <= tk_u x3 /\ w < g) /\ settled (g - w) x3 x4;
  co_5 : (MINUS_HALF <= tk_h x4 \/ w = 0) /\ y = x4 \/ (tk_h x4 < MINUS_HALF /\ 0 < w) /\ reduced FX_MAX (fmul L w) (fmul L w) x4 y }.
Lemma five_course x y : 0 < L -> 0 <= g -> 0 <= w -> inv x -> five_steps t base max_base max_pnl L g w x = Some y ->
  exists x1 x2 x3 x4, course x x1 x2 x3 x4 y.
Proof.
  intros HL Hg Hw0 I. unfold five_steps.
  destruct (step1 _ _ _ _ x) as [x1|] eqn:E1; [|discriminate]. apply step1_facts in E1 as [I1 F1]; [|assumption..].
  destruct (step24 _ _ _ _ x1) as [x2|] eqn:E2; [|discriminate]. apply step24_facts in E2 as [I2 F2]; [|assumption..].
  destruct (step3 _ _ _ _ _ _ _ x2) as [x3|] eqn:E3; [|discriminate]. apply step3_facts in E3 as [I3 F3]; [|assumption..].
  destruct (step24 _ _ _ _ x3) as [x4|] eqn:E4; [|discriminate]. apply step24_facts in E4 as [I4 F4]; [|assumption..].
  intros E5. apply step5_facts in E5 as [I5 F5]; [|assumption..].
  exists x1, x2, x3, x4. constructor; try assumption. do 5 (split; [assumption|]). assumption.
Qed.

(** ** never more than one lot too much *)
Lemma reduced_over limit ex ac x y K : reduced limit ex ac x y -> 0 <= ac <= ex -> 0 <= lwp -> 2 * fone + ex * lwp <= K ->
  tk_h x * fone < K -> tk_h y * fone < K.
Proof.
  intros (lots & need & He & H1 & _ & _ & _ & H2 & H3 & H4 & H5 & _ & H6 & _) Ha Hl HK Hx. unfold same_h in H3.
  destruct (Z.leb_spec 0 (tk_h x)) as [P|P].
  - specialize (H4 P). subst lots. rewrite Z.mul_0_r, Z.add_0_r in H2. rewrite H2 in H3. replace (tk_h y) with (tk_h x) by lia. exact Hx.
  - pose proof (over _ _ (tk_s y) _ ex P H5) as O.
    assert (Hs : tk_s y <= tk_s x + need + ex).
    { rewrite H2. apply need_facts in H5 as (N0 & _). destruct (Z.leb_spec lots 0); [assert (lots = 0) by lia; subst lots; lia|]. specialize (H6 ltac:(lia)).
      assert (ac * lots <= ex * lots) by nia. nia. }
    specialize (O Hs ltac:(lia)). replace (tk_h y) with (tk_h x - C (tk_s x) + C (tk_s y)) by lia. lia.
Qed.
Lemma settled_over k x y K : settled k x y -> 0 <= lwp -> 2 * fone <= K -> tk_h x * fone < K -> tk_h y * fone < K.
Proof.
  intros (st & need & H1 & _ & _ & _ & _ & _ & H2 & H3 & H4 & H5 & H6 & _) Hl HK Hx. unfold same_h in H3.
  destruct (Z.leb_spec 0 (tk_h x)) as [P|P].
  - specialize (H4 P). subst st. rewrite fmul_0_l, Z.add_0_r in H2. rewrite H2 in H3. replace (tk_h y) with (tk_h x) by lia. exact Hx.
  - pose proof (over _ _ (tk_s y) _ 0 P H5 ltac:(lia) ltac:(lia)) as O. replace (tk_h y) with (tk_h x - C (tk_s x) + C (tk_s y)) by lia. lia.
Qed.
Lemma course_over x0 x1 x2 x3 x4 y K : course x0 x1 x2 x3 x4 y -> 0 < L -> 0 <= w <= g -> g <= fone -> 2 * fone + L * lwp <= K ->
  tk_h x0 * fone < K -> tk_h y * fone < K.
Proof.
  intros [_ F1 F2 F3 F4 F5] HL Hg G1 HK H0.
  assert (Hl : 0 <= lwp) by lia. pose proof fone_pos as FP.
  assert (M : 0 <= fmul L w <= fmul L g /\ fmul L g <= L).
  { split; [split; [apply fmul_nonneg; lia|apply fmul_mono_r; lia]|]. pose proof (fmul_mono_r L g fone ltac:(lia) ltac:(lia)) as X. rewrite fmul_one_r in X. exact X. }
  assert (K1 : tk_h x1 * fone < K) by (destruct F1 as [[_ ->]|[_ F]]; [assumption|refine (reduced_over _ _ _ _ _ _ F _ Hl _ H0); lia]).
  assert (K2 : tk_h x2 * fone < K) by (destruct F2 as [[_ ->]|[_ F]]; [assumption|refine (settled_over _ _ _ _ F Hl _ K1); nia]).
  assert (K3 : tk_h x3 * fone < K) by (destruct F3 as [[_ ->]|[_ F]]; [assumption|refine (reduced_over _ _ _ _ _ _ F _ Hl _ K2); [lia|nia]]).
  assert (K4 : tk_h x4 * fone < K) by (destruct F4 as [[_ ->]|[_ F]]; [assumption|refine (settled_over _ _ _ _ F Hl _ K3); nia]).
  destruct F5 as [[_ ->]|[_ F]]; [assumption|refine (reduced_over _ _ _ _ _ _ F _ Hl _ K4); [lia|nia]].
Qed.
Lemma course_h x0 x1 x2 x3 x4 y : course x0 x1 x2 x3 x4 y -> same_h x0 y.
Proof.
  intros [_ F1 F2 F3 F4 F5]. unfold same_h in *.
  assert (E1 : same_h x0 x1) by (destruct F1 as [[_ ->]|[_ (a & b & F)]]; [reflexivity|tauto]).
  assert (E2 : same_h x1 x2) by (destruct F2 as [[_ ->]|[_ (a & b & F)]]; [reflexivity|tauto]).
  assert (E3 : same_h x2 x3) by (destruct F3 as [[_ ->]|[_ (a & b & F)]]; [reflexivity|tauto]).
  assert (E4 : same_h x3 x4) by (destruct F4 as [[_ ->]|[_ (a & b & F)]]; [reflexivity|tauto]).
  assert (E5 : same_h x4 y) by (destruct F5 as [[_ ->]|[_ (a & b & F)]]; [reflexivity|tauto]).
  unfold same_h in *. lia.
Qed.

(** ** where a step stops that still had lots to take *)
Definition small : Prop := lwp * (L + 3 * fone) <= 2 ^ 46 * fone * fone.
Lemma small_use k : small -> 0 <= L -> k <= L / fone + 2 -> 0 <= k -> Z.max fone lwp + fone + k * lwp <= 2 ^ 47 * fone.
Proof.
  intros S HL Hk K0. unfold small in S. pose proof fone_pos as FP. pose proof (Z.div_mod L fone ltac:(lia)) as D. pose proof (Z.mod_pos_bound L fone FP) as M.
  assert (Hl : 0 <= lwp) by lia.
  assert (A : k * lwp * fone <= (L + 2 * fone) * lwp) by nia.
  assert (B : (Z.max fone lwp + fone + k * lwp) * fone <= 2 ^ 47 * fone * fone).
  { assert (Z.max fone lwp <= fone + lwp) by lia. assert (Z.max fone lwp * fone <= fone * fone + lwp * fone) by nia.
    replace (2 ^ 47) with (2 * 2 ^ 46) by reflexivity. assert (3 * (fone * fone) <= 2 ^ 46 * fone * fone).
    { rewrite <- Z.mul_assoc. apply Z.mul_le_mono_nonneg_r; [lia|]. vm_compute; discriminate. }
    nia. }
  nia.
Qed.
(** reducing stops at health zero, at the limit, or when no lots are left *)
Lemma reduced_stop limit ex ac x y : small -> 0 < L -> ex <= L -> ac = ex -> reduced limit ex ac x y -> 0 < room y ->
  MINUS_HALF <= tk_h y \/ limit < FX_MAX /\ limit * fone - ex < (tk_s y - tk_s x) * fone.
Proof.
  intros S HL Hx -> (lots & need & He & H1 & H0 & _ & _ & H2 & H3 & H4 & H5 & Hm & H6 & H7) R.
  assert (RY : lots < room x) by (unfold room in *; lia). specialize (H7 RY). unfold same_h in H3.
  destruct (Z.leb_spec 0 (tk_h x)) as [P|P].
  - specialize (H4 P). subst lots. left. rewrite Z.mul_0_r, Z.add_0_r in H2. rewrite H2 in H3. assert (tk_h y = tk_h x) by lia. unfold MINUS_HALF. lia.
  - destruct (Z.ltb_spec limit need) as [Q|Q].
    + right. split; [lia|]. rewrite Z.min_r in H7 by lia. rewrite H2. lia.
    + rewrite Z.min_l in H7 by lia. left. pose proof fone_pos as FP.
      assert (Hs : tk_s x + need <= tk_s y + (L / fone + 1)).
      { rewrite H2. pose proof (Z.div_mod L fone ltac:(lia)) as D. pose proof (Z.mod_pos_bound L fone FP) as M. nia. }
      assert (0 <= L / fone) by (apply Z.div_pos; lia).
      pose proof (under _ _ (tk_s y) _ (L / fone + 1) P H5 Hs ltac:(lia)) as U.
      pose proof (small_use (L / fone + 1) S ltac:(lia) ltac:(lia) ltac:(lia)) as W.
      replace (tk_h y) with (tk_h x - C (tk_s x) + C (tk_s y)) by lia. set (h := tk_h x - C (tk_s x) + C (tk_s y)) in *. clearbody h.
      assert (- (2 ^ 47) * fone < h * fone) by lia. unfold MINUS_HALF. nia.
Qed.

Lemma wd_bounds d n : 0 <= w <= fone -> -1 <= d <= n -> 0 <= n -> - fone <= w * d <= fone * n.
Proof. intros W D N. destruct (Z.leb_spec 0 d) as [P|P]; [split; nia|assert (d = -1) by lia; subst d; pose proof fone_pos; split; nia]. Qed.
Lemma weigh_near u d : 0 <= w <= fone -> u < 0 -> -1 <= d -> u - 1 <= weigh (u + d) <= u + Z.max d 0.
Proof.
  intros W U D. destruct (weigh_bounds (u + d) W) as [X Y]. pose proof fone_pos as FP. destruct (Z.leb_spec 0 (u + d)) as [P|P]; [|rewrite Y by lia; lia].
  specialize (X P). assert (0 <= weigh (u + d) <= u + d) by (clear - X P FP W; split; nia). lia.
Qed.
(** ** the projected balance against the one health counts *)
Lemma course_gap x0 x1 x2 x3 x4 y d : course x0 x1 x2 x3 x4 y -> small -> 0 < L -> 0 <= w <= fone -> 0 <= g ->
  tk_red x0 = 0 -> tk_pnl x0 = 0 -> -1 <= d <= tk_red y ->
  tk_u y = tk_u x0 + L * tk_red y - tk_pnl y /\
  let real := weigh (tk_u y + d) - weigh (tk_u x0) + fmul (tk_pnl y) g in
  let proj := tk_s y - tk_s x0 in
  proj - L - 4 <= real <= proj + 2 * tk_red y + L / fone + 4.
Proof.
  intros [I F1 F2 F3 F4 F5] Sm HL W G R0 P0 D. pose proof fone_pos as FP. assert (LF : 0 <= L / fone) by (apply Z.div_pos; lia).
  (* the steps after the first *)
  assert (T : forall u1, tk_u x1 = u1 -> 0 <= u1 -> exists r st2 st4, 0 <= r /\ tk_red y = tk_red x1 + r /\ 0 <= st2 /\ 0 <= st4 /\
      tk_pnl y = tk_pnl x1 + st2 + st4 /\ tk_u y = u1 + L * r - st2 - st4 /\ 0 <= tk_u y /\
      (st2 = 0 /\ st4 = 0 \/ True) /\ tk_s y = tk_s x1 + (fmul st2 (g - w) + fmul L w * r + fmul st4 (g - w))).
  { intros u1 E U. 
    assert (A2 : exists st, 0 <= st /\ tk_red x2 = tk_red x1 /\ tk_pnl x2 = tk_pnl x1 + st /\ tk_u x2 = tk_u x1 - st /\ 0 <= tk_u x2 /\ tk_s x2 = tk_s x1 + fmul st (g - w)).
    { destruct F2 as [[_ ->]|[_ (st & n & F)]]; [exists 0; rewrite fmul_0_l; lia|]. exists st. lia. }
    destruct A2 as (st2 & A21 & A22 & A23 & A24 & A25 & A26).
    assert (A3 : exists r, 0 <= r /\ tk_red x3 = tk_red x2 + r /\ tk_pnl x3 = tk_pnl x2 /\ tk_u x3 = tk_u x2 + L * r /\ 0 <= tk_u x3 /\ tk_s x3 = tk_s x2 + fmul L w * r).
    { destruct F3 as [[_ ->]|[_ (r & n & F)]]; [exists 0; lia|]. exists r. assert (0 <= L * r) by nia. lia. }
    destruct A3 as (r3 & A31 & A32 & A33 & A34 & A35 & A36).
    assert (A4 : exists st, 0 <= st /\ tk_red x4 = tk_red x3 /\ tk_pnl x4 = tk_pnl x3 + st /\ tk_u x4 = tk_u x3 - st /\ 0 <= tk_u x4 /\ tk_s x4 = tk_s x3 + fmul st (g - w)).
    { destruct F4 as [[_ ->]|[_ (st & n & F)]]; [exists 0; rewrite fmul_0_l; lia|]. exists st. lia. }
    destruct A4 as (st4 & A41 & A42 & A43 & A44 & A45 & A46).
    assert (A5 : exists r, 0 <= r /\ tk_red y = tk_red x4 + r /\ tk_pnl y = tk_pnl x4 /\ tk_u y = tk_u x4 + L * r /\ 0 <= tk_u y /\ tk_s y = tk_s x4 + fmul L w * r).
    { destruct F5 as [[_ ->]|[_ (r & n & F)]]; [exists 0; lia|]. exists r. assert (0 <= L * r) by nia. lia. }
    destruct A5 as (r5 & A51 & A52 & A53 & A54 & A55 & A56).
    exists (r3 + r5), st2, st4. do 8 (split; [lia|]). rewrite A56, A46, A36, A26. ring. }
  destruct F1 as [[U0 ->]|[U0 FR]].
  - destruct (T _ eq_refl U0) as (r & st2 & st4 & B1 & B2 & B3 & B4 & B5 & B6 & B7 & _ & B8). rewrite R0, P0 in *.
    assert (B2' : tk_red y = r) by lia. assert (B5' : tk_pnl y = st2 + st4) by lia. split; [rewrite B6, B2', B5'; lia|]. cbv zeta.
    rewrite B5', B6, B8, B2' in *. pose proof (gap (tk_u x0) r st2 st4 r d (g - w) W ltac:(lia) U0 ltac:(lia) B3 B4 D ltac:(lia) ltac:(auto)) as Q. cbv zeta in Q. lia.
  - pose proof FR as (r1 & n1 & _ & H1 & H2 & H3 & H4 & H5 & H6 & H7 & H8 & _ & H9 & H10). destruct (Z.leb_spec 0 (tk_u x1)) as [U1|U1].
    + destruct (T _ eq_refl U1) as (r & st2 & st4 & B1 & B2 & B3 & B4 & B5 & B6 & B7 & _ & B8). rewrite R0, P0 in *.
      assert (B5' : tk_pnl y = st2 + st4) by lia. split; [rewrite B6, B5', B2, H2, H4; ring|]. cbv zeta.
      assert (U1L : tk_u x1 <= L). { destruct (Z.leb_spec r1 0); [assert (r1 = 0) by lia; subst r1; lia|]. specialize (H9 ltac:(lia)). nia. }
      assert (W1 : 0 <= weigh (tk_u x1) <= tk_u x1).
      { destruct (weigh_bounds (tk_u x1) W) as [X _]. specialize (X U1). split; nia. }
      assert (W0 : weigh (tk_u x0) = tk_u x0) by (apply weigh_bounds; [exact W|lia]). rewrite W0.
      rewrite B5'. rewrite B6 in *. pose proof (gap (tk_u x1) r st2 st4 (tk_red y) d (g - w) W ltac:(lia) U1 ltac:(lia) B3 B4 D ltac:(lia) ltac:(auto)) as Q. cbv zeta in Q.
      rewrite B8, H5. lia.
    + (* the later settlement steps are not taken *)
      assert (E2 : x2 = x1) by (destruct F2 as [[_ E]|[[E _] _]]; [exact E|lia]). subst x2.
      assert (E3 : x3 = x1) by (destruct F3 as [[_ E]|[[E _] _]]; [exact E|lia]). subst x3.
      assert (E4 : x4 = x1) by (destruct F4 as [[_ E]|[[E _] _]]; [exact E|lia]). subst x4.
      assert (W0 : weigh (tk_u x0) = tk_u x0) by (apply weigh_bounds; [exact W|lia]).
      destruct F5 as [[_ ->]|[[Hh Hw5] F5]].
      * rewrite R0, P0 in *. assert (H3' : tk_pnl x1 = 0) by lia. rewrite H3', fmul_0_l. split; [rewrite H2, H4; ring|]. cbv zeta. rewrite W0, H5.
        pose proof (weigh_near (tk_u x1) d W U1 ltac:(lia)) as X. clear - X H4 H2 H1 D LF HL. lia.
      * pose proof F5 as F5'. destruct F5 as (r5 & n5 & G0 & G1 & G2 & G3 & G4 & G5 & G6 & G7 & G8 & _ & G9 & G10).
        rewrite R0, P0 in *. assert (H3' : tk_pnl y = 0) by lia. rewrite H3', fmul_0_l. split; [rewrite G2, H2, G4, H4; ring|]. cbv zeta. rewrite W0, G5, H5.
        destruct (Z.leb_spec r5 0) as [Z5|Z5].
        { assert (r5 = 0) by lia. subst r5. rewrite !Z.mul_0_r, !Z.add_0_r in *. rewrite G4. 
          pose proof (weigh_near (tk_u x1) d W U1 ltac:(lia)) as X. clear - X H4 H2 H1 D LF HL G2. lia. }
        assert (RX : 0 < room x1) by lia.
        assert (Q : - L < tk_u x1 * fone).
        { destruct (reduced_stop _ _ _ _ _ Sm HL (Z.le_refl L) eq_refl FR RX) as [X|[_ X]]; [clear - X Hh; lia|]. clear - X H5 H4. nia. }
        assert (Q' : - (L / fone) - 1 <= tk_u x1).
        { pose proof (Z.div_mod L fone ltac:(clear - FP; lia)) as Dm. pose proof (Z.mod_pos_bound L fone FP) as M. clear - Q Dm M FP. nia. }
        rewrite G4. set (u1 := tk_u x1) in *. assert (E0 : L * r1 = u1 - tk_u x0) by (clear - H4; lia). rewrite E0.
        clear - Q Q' W U1 Z5 D H1 H2 G1 G2 HL FP LF R0.
        pose proof (fmul_bounds L w) as FB. assert (FB' : L * w * r5 - fone * r5 <= fmul L w * r5 * fone <= L * w * r5) by nia.
        destruct (weigh_bounds (u1 + L * r5 + d) W) as [X Y].
        assert (Hr : 0 <= r1 /\ tk_red y = r1 + r5) by lia. set (rr := tk_red y) in *. clearbody rr.
        pose proof (wd_bounds d rr W D ltac:(lia)) as WD.
        assert (E : w * (u1 + L * r5 + d) = w * u1 + L * w * r5 + w * d) by ring.
        assert (B : w * u1 + L * w * r5 - 2 * fone <= weigh (u1 + L * r5 + d) * fone <= L * w * r5 + fone * rr).
        { destruct (Z.leb_spec 0 (u1 + L * r5 + d)) as [P|P].
          - specialize (X P). assert (w * u1 <= 0) by (clear - W U1; nia). clear - X E WD H FP. lia.
          - rewrite Y by lia. assert (0 <= L * w * r5) by (clear - W HL Z5; nia).
            (* the position was a fraction of a lot below zero *)
            assert (L * 1 <= L * r5) by (clear - HL Z5; nia). assert (E1 : u1 + L * r5 + d >= -1).
            { assert (LL : L / fone < L) by (apply Z.div_lt; [exact HL|reflexivity]). lia. }
            assert (E2 : u1 + L * r5 + d = -1) by lia. rewrite E2 in *. split; [|nia]. lia. }
        assert (Bu : fone * u1 <= w * u1) by (clear - W U1; nia).
        set (a := weigh _) in *. set (b := fmul L w * r5) in *. set (q := L / fone) in *. clearbody a b q.
        assert (N1 : -2 <= a - b - u1) by (clear - B FB' Bu FP; nia).
        assert (N2 : (a - b - u1) * fone <= (rr + r5 + q + 1) * fone) by (clear - B FB' Q' FP; nia).
        apply Z.mul_le_mono_pos_r in N2; [|exact FP]. lia.
Qed.

(** ** when the steps stop early *)
Lemma reduced_mono limit ex ac x y : reduced limit ex ac x y -> 0 <= ac -> tk_h x <= tk_h y /\ room y <= room x.
Proof.
  intros (lots & need & He & H1 & H0 & _ & _ & H2 & H3 & _) A. split; [|unfold room in *; lia].
  pose proof (C_mono (tk_s x) (tk_s y) ltac:(nia)). unfold same_h in H3. lia.
Qed.
Lemma settled_mono k x y : settled k x y -> 0 <= k -> tk_h x <= tk_h y /\ room y = room x /\ tk_pnl x <= tk_pnl y.
Proof.
  intros (st & need & H1 & _ & _ & H0 & H4 & _ & H2 & H3 & _) A. split; [|unfold room in *; lia].
  assert (0 <= fmul st k) by (apply fmul_nonneg; assumption).
  pose proof (C_mono (tk_s x) (tk_s y) ltac:(lia)). unfold same_h in H3. lia.
Qed.
(** health is reached, up to rounding *)
Lemma reached h s s' n k : small -> 0 < L -> h < 0 -> spot_amount_given h s awp lwp = Some n -> s + n <= s' + k -> 0 <= k <= L / fone + 2 ->
  MINUS_HALF <= h - C s + C s'.
Proof.
  intros S HL Hh Hn Hs K. pose proof (under _ _ s' _ k Hh Hn Hs ltac:(lia)) as U.
  pose proof (small_use k S ltac:(lia) ltac:(lia) ltac:(lia)) as W. set (z := h - C s + C s') in *. clearbody z. pose proof fone_pos.
  assert (- (2 ^ 47) * fone < z * fone) by lia. unfold MINUS_HALF. nia.
Qed.
Lemma settled_stop k x y : small -> 0 < L -> 0 < k <= fone -> settled k x y ->
  MINUS_HALF <= tk_h y \/ tk_pnl y = max_pnl \/ tk_u y = 0.
Proof.
  intros S HL K (st & need & H1 & H2 & H3 & H4 & H5 & H6 & H7 & H8 & H9 & H10 & H11 & H12). unfold same_h in H8.
  destruct (Z.eq_dec st (tk_u x)); [lia|]. destruct (Z.eq_dec st (max_pnl - tk_pnl x)); [lia|]. specialize (H12 ltac:(lia) ltac:(lia)). left.
  destruct (Z.leb_spec 0 (tk_h x)) as [P|P].
  - specialize (H9 P). subst st. rewrite fmul_0_l, Z.add_0_r in H7. rewrite H7 in H8. unfold MINUS_HALF. lia.
  - pose proof fone_pos as FP. pose proof (fmul_bounds st k) as FB. assert (Q : 0 <= L / fone) by (apply Z.div_pos; lia).
    pose proof (reached (tk_h x) (tk_s x) (tk_s y) need 2 S HL P H10) as R.
    assert (X : tk_s x + need <= tk_s y + 2). { rewrite H7. nia. }
    specialize (R X ltac:(lia)). lia.
Qed.
Lemma course_complete x0 x1 x2 x3 x4 y : course x0 x1 x2 x3 x4 y -> small -> 0 < L -> 0 <= w <= fone -> 0 <= g <= fone -> 0 < room y ->
  MINUS_HALF <= tk_h y \/
  w = 0 /\ (max_pnl - tk_pnl y <= L / fone + 2 \/ - (L / fone) - 1 <= tk_u y < 0).
Proof.
  intros [I F1 F2 F3 F4 F5] Sm HL W G R. pose proof fone_pos as FP. assert (LF : 0 <= L / fone) by (apply Z.div_pos; lia).
  pose proof (Z.div_mod L fone ltac:(clear - FP; lia)) as Dm. pose proof (Z.mod_pos_bound L fone FP) as Mm.
  assert (M : 0 <= fmul L w /\ fmul L w <= L).
  { split; [apply fmul_nonneg; lia|]. pose proof (fmul_mono_r L w fone ltac:(lia) ltac:(lia)) as X. rewrite fmul_one_r in X. exact X. }
  destruct (Z.leb_spec MINUS_HALF (tk_h y)) as [H|H]; [left; exact H|right].
  destruct F5 as [[X ->]|[[X1 X2] F5]].
  2:{ exfalso. destruct (reduced_stop _ _ _ _ _ Sm HL (proj2 M) eq_refl F5 R) as [X|[X _]]; lia. }
  destruct X as [X|W0]; [lia|]. split; [exact W0|]. rewrite W0 in *. clear M.
  assert (M4 : tk_h x3 <= tk_h x4 /\ room x4 = room x3 /\ tk_pnl x3 <= tk_pnl x4).
  { destruct F4 as [[_ ->]|[[_ E] F]]; [lia|apply (settled_mono _ _ _ F); lia]. }
  assert (M3 : tk_h x2 <= tk_h x3 /\ room x3 <= room x2 /\ tk_pnl x2 = tk_pnl x3).
  { destruct F3 as [[_ ->]|[_ F]]; [lia|]. pose proof (reduced_mono _ _ _ _ _ F ltac:(rewrite fmul_0_r; lia)) as Y.
    destruct F as (lots & need & _ & _ & _ & Z1 & _). lia. }
  assert (M2 : tk_h x1 <= tk_h x2 /\ room x2 = room x1 /\ tk_pnl x1 <= tk_pnl x2).
  { destruct F2 as [[_ ->]|[[_ E] F]]; [lia|apply (settled_mono _ _ _ F); lia]. }
  assert (U1 : 0 <= tk_u x1 \/ - (L / fone) - 1 <= tk_u x1 < 0).
  { destruct F1 as [[U ->]|[U F]]; [auto|]. destruct (Z.leb_spec 0 (tk_u x1)) as [P|P]; [auto|right].
    destruct (reduced_stop _ _ _ _ _ Sm HL (Z.le_refl L) eq_refl F ltac:(lia)) as [Y|[_ Y]]; [lia|].
    destruct F as (lots & need & _ & _ & _ & _ & Z1 & Z2 & _). split; [|exact P]. clear - Y Z1 Z2 Dm Mm FP. nia. }
  destruct U1 as [U1|U1].
  2:{ right. assert (x2 = x1) by (destruct F2 as [[_ E]|[[E _] _]]; [exact E|lia]). subst x2.
      assert (x3 = x1) by (destruct F3 as [[_ E]|[[E _] _]]; [exact E|lia]). subst x3.
      assert (x4 = x1) by (destruct F4 as [[_ E]|[[E _] _]]; [exact E|lia]). subst x4. exact U1. }
  left.
  assert (U2 : 0 <= tk_u x2). { destruct F2 as [[_ ->]|[_ (st & n & F)]]; [exact U1|lia]. }
  destruct F3 as [[[E|E] _]|[[_ E] F3]]; [lia|lia|].
  pose proof F3 as (lots & need & E0 & E1 & E2 & E3 & E4 & E5 & E6 & E7 & E8 & E9 & E10 & E11).
  specialize (E11 ltac:(unfold room in *; lia)). rewrite fmul_0_r, Z.mul_0_l, Z.add_0_r in E5.
  assert (G0 : 0 < g). { destruct (Z.eq_dec g 0) as [->|]; [rewrite fmul_0_r in E0; lia|lia]. }
  assert (U3 : 0 <= tk_u x3) by (rewrite E4; clear - U2 E1 HL; nia).
  destruct F4 as [[[Y|Y] _]|[_ F4]]; [lia|lia|]. rewrite Z.sub_0_r in F4.
  assert (KK : 0 < g <= fone) by lia. destruct (settled_stop _ _ _ Sm HL KK F4) as [Y|[Y|Y]]; [lia|lia|].
  destruct F4 as (st & n4 & S1 & S2 & S3 & S4 & S5 & S6 & S7 & S8 & S9 & S10 & S11 & S12).
  assert (ES : st = tk_u x3) by lia. 
  assert (E3h : tk_h x3 = tk_h x2) by (unfold same_h in E6; rewrite E5 in E6; lia).
  rewrite E3h, E5, E8 in S10. apply some_inj in S10. subst n4.
  pose proof (fmul_bounds L g) as FL. pose proof (fmul_bounds st g) as FS.
  assert (A1 : lots * fmul L g * fone <= st * g). { rewrite ES, E4. clear - FL E1 U2 G0. nia. }
  assert (A2 : fmul L g <= L). { pose proof (fmul_mono_r L g fone ltac:(lia) ltac:(lia)) as Q. rewrite fmul_one_r in Q. exact Q. }
  destruct (Z.leb_spec need (max_pnl - tk_pnl x2)) as [Q|Q].
  - exfalso. rewrite Z.min_l in E11 by lia.
    assert (Hh2 : tk_h x3 < 0). { unfold MINUS_HALF in H. lia. }
    rewrite <- E3h, <- E5 in E8.
    pose proof (reached (tk_h x3) (tk_s x3) (tk_s x4) need (L / fone + 2) Sm HL Hh2 E8) as RR.
    assert (XX : tk_s x3 + need <= tk_s x4 + (L / fone + 2)). { rewrite S7. clear - A1 A2 E11 FS FP Dm Mm. nia. }
    specialize (RR XX ltac:(lia)). unfold same_h in S8. lia.
  - rewrite Z.min_r in E11 by lia. assert (A3 : st * g <= st * fone) by (clear - S1 G; nia).
    assert (A4 : (max_pnl - tk_pnl x2 - st) * fone < L) by lia.
    assert (max_pnl - tk_pnl x2 - st <= L / fone + 1) by (clear - A4 Dm Mm FP; nia). lia.
Qed.
End Steps.
