(** Depth queries: proofs. *)
From Coq Require Import List ZArith Lia Bool Sorted.
From Verif Require Import OrderTree OrderTreeSpec Keys BookSide BookSideSpec BookSideProofs.
Import ListNotations.
Open Scope Z_scope.

(** (quantity, price) of the orders, best first *)
Definition depth (L : list item) : list (Z * Z) := map (fun i => (l_quantity (it_leaf i), it_price i)) L.
Definition depth_ok (L : list item) : Prop := Forall (fun x => 0 < fst x /\ 1 <= snd x) (depth L).

Definition dok (D : list (Z * Z)) : Prop := Forall (fun x => 0 < fst x /\ 1 <= snd x) D.

Lemma total_app A B : total_qty (A ++ B) = total_qty A + total_qty B.
Proof.
  induction A as [|x A IH]; [reflexivity|]. change (total_qty ((x :: A) ++ B)) with (fst x + total_qty (A ++ B)).
  change (total_qty (x :: A)) with (fst x + total_qty A). lia.
Qed.
Lemma total_nonneg D : dok D -> 0 <= total_qty D.
Proof.
  induction 1 as [|x D Hx HD IH]; [cbn; lia|]. change (total_qty (x :: D)) with (fst x + total_qty D). lia.
Qed.
Lemma total_cons x D : total_qty (x :: D) = fst x + total_qty D.
Proof. reflexivity. Qed.

Lemma impact_some L : forall sum q p, depth_ok L -> sum < q ->
  (impact_price_from sum q L = Some p <->
   exists A i B, L = A ++ i :: B /\ it_price i = p /\
     sum + total_qty (depth A) < q <= sum + total_qty (depth (A ++ [i]))).
Proof.
  induction L as [|x L IH]; intros sum q p Hok Hq; cbn [impact_price_from].
  - split; [discriminate|]. intros (A & i & B & E & _). destruct A; discriminate.
  - inversion Hok as [|? ? Hx HL]; subst. cbn [fst snd] in Hx.
    destruct (Z.leb_spec q (sum + l_quantity (it_leaf x))) as [H|H].
    + split.
      * intros E. injection E as <-. exists [], x, L. split; [reflexivity|]. split; [reflexivity|].
        cbn. lia.
      * intros (A & i & B & E & Hp & H1 & H2). destruct A as [|y A].
        -- injection E as -> ->. congruence.
        -- exfalso. cbn [app] in E. injection E as <- ->. cbn [depth map] in H1. rewrite total_cons in H1. cbn [fst] in H1.
           fold (depth A) in H1.
           assert (Hd : dok (depth A)).
           { unfold dok, depth_ok in *. change (map _ (A ++ i :: B)) with (depth (A ++ i :: B)) in HL.
             unfold depth in HL. rewrite map_app in HL. apply Forall_app in HL as [HL _]. exact HL. }
           pose proof (total_nonneg _ Hd). lia.
    + rewrite (IH (sum + l_quantity (it_leaf x)) q p HL H). split.
      * intros (A & i & B & -> & Hp & H1). exists (x :: A), i, B. split; [reflexivity|]. split; [exact Hp|].
        cbn [app depth map]. rewrite !total_cons. cbn [fst]. fold (depth A). fold (depth (A ++ [i])). lia.
      * intros (A & i & B & E & Hp & H1). destruct A as [|y A].
        -- exfalso. injection E as -> ->. cbn in H1. lia.
        -- cbn [app] in E. injection E as <- ->. exists A, i, B. split; [reflexivity|]. split; [exact Hp|].
           cbn [app depth map] in H1. rewrite !total_cons in H1. cbn [fst] in H1.
           fold (depth A) in H1. fold (depth (A ++ [i])) in H1. lia.
Qed.
Lemma impact_none L : forall sum q, depth_ok L -> sum < q ->
  (impact_price_from sum q L = None <-> sum + total_qty (depth L) < q).
Proof.
  induction L as [|x L IH]; intros sum q Hok Hq; cbn [impact_price_from].
  - cbn. split; [lia|reflexivity].
  - inversion Hok as [|? ? Hx HL]; subst. cbn [fst snd] in Hx. cbn [depth map]. rewrite total_cons. cbn [fst].
    fold (depth L). destruct (Z.leb_spec q (sum + l_quantity (it_leaf x))) as [H|H].
    + split; [discriminate|]. pose proof (total_nonneg _ HL). unfold depth in *. lia.
    + rewrite (IH _ _ HL H). lia.
Qed.

Lemma impact_price_spec : forall q L p, depth_ok L -> 0 < q ->
  (impact_price q L = Some p <->
   exists A i B, L = A ++ i :: B /\ it_price i = p /\
     total_qty (depth A) < q <= total_qty (depth (A ++ [i]))) /\
  (impact_price q L = None <-> total_qty (depth L) < q).
Proof.
  intros q L p Hok Hq. unfold impact_price. split.
  - rewrite (impact_some L 0 q p Hok Hq). setoid_rewrite Z.add_0_l. reflexivity.
  - rewrite (impact_none L 0 q Hok Hq). rewrite Z.add_0_l. reflexivity.
Qed.

Lemma cost_zero D : dok D -> cost_of_taking 0 D = 0.
Proof.
  induction 1 as [|[n p] D Hx HD IH]; cbn [cost_of_taking]; [reflexivity|]. cbn [fst snd] in Hx.
  rewrite Z.min_l by lia. rewrite Z.sub_0_r, IH. lia.
Qed.

Lemma matched_amount_from_spec L : forall sq sa q, depth_ok L -> sq < q ->
  matched_amount_from sq sa q L =
  (if q <=? sq + total_qty (depth L) then Some (sa + cost_of_taking (q - sq) (depth L)) else None).
Proof.
  induction L as [|x L IH]; intros sq sa q Hok Hq; cbn [matched_amount_from].
  - cbn. destruct (Z.leb_spec q (sq + 0)); [lia|reflexivity].
  - inversion Hok as [|? ? Hx HL]; subst. cbn [fst snd] in Hx. cbn [depth map]. rewrite total_cons.
    cbn [fst cost_of_taking]. fold (depth L). change (dok (depth L)) in HL.
    pose proof (total_nonneg _ HL) as Hn.
    set (n := l_quantity (it_leaf x)) in *. set (p := it_price x) in *.
    destruct (Z.leb_spec 0 (sq + n - q)) as [H|H].
    + destruct (Z.leb_spec q (sq + (n + total_qty (depth L)))); [|lia].
      rewrite Z.min_l by lia. rewrite Z.sub_diag, cost_zero by exact HL. f_equal. lia.
    + rewrite (IH _ _ q HL) by lia.
      replace (sq + n + total_qty (depth L)) with (sq + (n + total_qty (depth L))) by lia.
      destruct (q <=? sq + (n + total_qty (depth L))); [|reflexivity].
      rewrite Z.min_r by lia. f_equal. replace (q - sq - n) with (q - (sq + n)) by lia. lia.
Qed.
Lemma matched_amount_spec : forall q L, depth_ok L -> 0 < q ->
  matched_amount q L =
  (if q <=? total_qty (depth L) then Some (cost_of_taking q (depth L)) else None).
Proof.
  intros q L Hok Hq. unfold matched_amount. destruct (Z.leb_spec q 0); [lia|].
  rewrite (matched_amount_from_spec L 0 0 q Hok Hq). rewrite Z.sub_0_r. reflexivity.
Qed.

Lemma quantity_at_price_spec : forall sd limit L,
  StronglySorted (fun x y => ~ better_price sd (it_price y) (it_price x)) L ->
  quantity_at_price sd limit L =
  total_qty (depth (filter (fun i => negb (is_price_better sd limit (it_price i))) L)).
Proof.
  intros sd limit L H. induction H as [|x L HL IH HF]; [reflexivity|].
  cbn [quantity_at_price filter]. destruct (is_price_better sd limit (it_price x)) eqn:E; cbn [negb].
  - replace (filter (fun i => negb (is_price_better sd limit (it_price i))) L) with (@nil item); [reflexivity|].
    symmetry. apply is_price_better_iff in E. clear IH HL. induction HF as [|y L Hy HF IH]; [reflexivity|]. cbn [filter].
    assert (E2 : is_price_better sd limit (it_price y) = true).
    { apply is_price_better_iff. unfold better_price in *. destruct sd; lia. }
    rewrite E2. cbn [negb]. exact IH.
  - cbn [depth map]. rewrite total_cons. cbn [fst]. rewrite IH. reflexivity.
Qed.

Lemma mq_shift L : forall sq sa a,
  matched_quantity_from sq sa a L = option_map (fun q => sq + q) (matched_quantity_from 0 0 (a - sa) L).
Proof.
  induction L as [|x L IH]; intros sq sa a; cbn [matched_quantity_from]; [reflexivity|].
  set (n := l_quantity (it_leaf x)). set (p := it_price x). rewrite !Z.add_0_l.
  replace (sa + n * p - a) with (n * p - (a - sa)) by lia.
  destruct (0 <=? n * p - (a - sa)).
  - cbn [option_map]. f_equal. lia.
  - rewrite (IH (sq + n) (sa + n * p)), (IH n (n * p)).
    replace (a - (sa + n * p)) with (a - sa - n * p) by lia.
    destruct (matched_quantity_from 0 0 (a - sa - n * p) L); cbn; [f_equal; lia|reflexivity].
Qed.

Lemma cost_pos D q : dok D -> 0 < q -> 0 < total_qty D -> 0 < cost_of_taking q D.
Proof.
  intros H. revert q. induction H as [|[n p] D Hx HD IH]; intros q Hq Ht; [cbn in Ht; lia|].
  cbn [cost_of_taking]. cbn [fst snd] in Hx.
  assert (0 <= cost_of_taking (q - Z.min q n) D).
  { destruct (Z_le_gt_dec (q - Z.min q n) 0) as [E|E].
    - assert (q - Z.min q n = 0) as -> by lia. rewrite cost_zero by exact HD. lia.
    - destruct (Z_le_gt_dec (total_qty D) 0) as [E2|E2].
      + pose proof (total_nonneg _ HD). destruct D as [|[a c] D]; [cbn; lia|].
        inversion HD as [|? ? Hy HD']; subst. cbn [fst snd] in Hy.
        rewrite total_cons in *. cbn [fst] in *. pose proof (total_nonneg _ HD'). lia.
      + specialize (IH (q - Z.min q n)). lia. }
  assert (1 * 1 <= Z.min q n * p) by (apply Z.mul_le_mono_nonneg; lia). lia.
Qed.

Lemma matched_quantity_spec : forall amount L, depth_ok L -> 0 < amount ->
  match matched_quantity amount L with
  | Some q => 0 <= q <= total_qty (depth L) /\
              cost_of_taking q (depth L) <= amount /\
              (q < total_qty (depth L) -> amount < cost_of_taking (q + 1) (depth L))
  | None => cost_of_taking (total_qty (depth L)) (depth L) < amount
  end.
Proof.
  intros amount L Hok Ha. unfold matched_quantity. destruct (Z.leb_spec amount 0); [lia|]. clear H.
  revert amount Ha. induction L as [|x L IH]; intros a Ha.
  - cbn. lia.
  - inversion Hok as [|? ? Hx HL]; subst. cbn [fst snd] in Hx. specialize (IH HL). cbn [matched_quantity_from].
    cbn [depth map]. rewrite !total_cons. cbn [fst]. fold (depth L). change (dok (depth L)) in HL.
    pose proof (total_nonneg _ HL) as Hn.
    set (n := l_quantity (it_leaf x)) in *. set (p := it_price x) in *. rewrite !Z.add_0_l.
    destruct (Z.leb_spec 0 (n * p - a)) as [H|H].
    + set (y := n * p - a) in *.
      rewrite Z.quot_div_nonneg by lia.
      pose proof (Z.div_mod (y + p - 1) p ltac:(lia)) as Hd.
      pose proof (Z.mod_pos_bound (y + p - 1) p ltac:(lia)) as Hm.
      set (c := (y + p - 1) / p) in *. clearbody c.
      assert (Hc0 : 0 <= c) by nia.
      assert (Hcn : c <= n) by nia.
      split; [lia|]. cbn [cost_of_taking]. rewrite Z.min_l by lia. rewrite Z.sub_diag, cost_zero by exact HL.
      split; [nia|]. intros Hlt. destruct (Z.eq_dec c 0) as [->|Hne].
      * rewrite Z.min_r by lia. replace (n - 0 + 1 - n) with 1 by lia.
        pose proof (cost_pos _ 1 HL ltac:(lia) ltac:(lia)). nia.
      * rewrite Z.min_l by lia. rewrite Z.sub_diag, cost_zero by exact HL. nia.
    + rewrite mq_shift. specialize (IH (a - n * p) ltac:(lia)).
      destruct (matched_quantity_from 0 0 (a - n * p) L) as [q|]; cbn [option_map].
      * destruct IH as (H1 & H2 & H3). split; [lia|]. cbn [cost_of_taking].
        rewrite !Z.min_r by lia. replace (n + q - n) with q by lia. split; [lia|].
        intros Hlt. replace (n + q + 1 - n) with (q + 1) by lia. specialize (H3 ltac:(lia)). lia.
      * cbn [cost_of_taking]. rewrite Z.min_r by lia. replace (n + total_qty (depth L) - n) with (total_qty (depth L)) by lia. lia.
Qed.

Lemma matched_quantity_refuted :
  exists L amount q, depth_ok L /\ 0 < amount /\ matched_quantity amount L = Some q /\
    cost_of_taking q (depth L) < amount.
Proof.
  exists [mkItem false (mkLeaf 0 0 0 0 0 10 0 0 0) 100 Valid], 150, 1.
  split; [|vm_compute; auto]. unfold depth_ok, depth. cbn. constructor; [cbn; lia|constructor].
Qed.
