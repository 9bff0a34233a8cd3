(** C38: the instruction gate. *)
From Coq Require Import List ZArith Lia Bool.
From Verif Require Import GateTable IxGate.
Import ListNotations.
Open Scope Z_scope.

Lemma requires_admin_spec old new :
  requires_admin old new = true <-> exists k, 0 <= k < 128 /\ Z.testbit old k = true /\ Z.testbit new k = false.
Proof.
  unfold requires_admin. rewrite existsb_exists. split.
  - intros (i & Hi & H). apply in_seq in Hi. apply andb_prop in H. destruct H as [H1 H2]. apply negb_true_iff in H2.
    exists (Z.of_nat i). unfold bit in *. split; [lia|]. split; assumption.
  - intros (k & Hk & H1 & H2). exists (Z.to_nat k). split; [apply in_seq; lia|]. unfold bit. rewrite Z2Nat.id by lia.
    rewrite H1, H2. reflexivity.
Qed.
(** C38: the admin can set any gate; the security admin exactly those that re-enable nothing;
    nobody else any.  The new gate is the requested one and the admins stay. *)
Theorem C38_who_may_set (g : group) (signer gate : Z) :
  ((exists g', ix_gate_set g signer gate = Some g') <->
     signer = g_admin g \/
     (signer = g_security g /\
      forall k, 0 <= k < 128 -> Z.testbit (g_gate g) k = true -> Z.testbit gate k = true)) /\
  (forall g', ix_gate_set g signer gate = Some g' ->
     g_gate g' = gate /\ g_admin g' = g_admin g /\ g_security g' = g_security g).
Proof.
  split.
  - unfold ix_gate_set. destruct (requires_admin (g_gate g) gate) eqn:E.
    + apply requires_admin_spec in E. destruct E as (k & Hk & E1 & E2).
      destruct (Z.eqb_spec (g_admin g) signer).
      * split; [intros _; left; congruence|]. intros _. eexists; reflexivity.
      * split; [intros (? & ?); discriminate|]. intros [?|[_ H]]; [congruence|]. rewrite (H k Hk E1) in E2. discriminate.
    + assert (N : forall k, 0 <= k < 128 -> Z.testbit (g_gate g) k = true -> Z.testbit gate k = true).
      { intros k Hk H1. destruct (Z.testbit gate k) eqn:H2; [reflexivity|].
        assert (requires_admin (g_gate g) gate = true) by (apply requires_admin_spec; exists k; tauto). congruence. }
      destruct (Z.eqb_spec (g_admin g) signer); cbn [orb].
      * split; [intros _; left; congruence|]. intros _. eexists; reflexivity.
      * destruct (Z.eqb_spec (g_security g) signer).
        -- split; [intros _; right; split; [congruence|exact N]|]. intros _. eexists; reflexivity.
        -- split; [intros (? & ?); discriminate|]. intros [?|[? _]]; congruence.
  - intros g'. unfold ix_gate_set. destruct (if requires_admin _ _ then _ else _); [|discriminate].
    intros H. inversion H. cbn. repeat split.
Qed.
(** 5 disables instructions 0 and 2; the security admin (key 8) may add 1 but not drop 2 *)
Example C38_who_may_set_ex :
  ix_gate_set (mkGroup 7 8 5) 8 7 = Some (mkGroup 7 8 7) /\ ix_gate_set (mkGroup 7 8 5) 8 1 = None /\
  ix_gate_set (mkGroup 7 8 5) 7 1 = Some (mkGroup 7 8 1) /\ ix_gate_set (mkGroup 7 8 5) 9 7 = None.
Proof. repeat split; vm_compute; reflexivity. Qed.
Print Assumptions C38_who_may_set.

(** C38: in any history of calls by anybody in which the group's admin does not sign,
    no disabled instruction is enabled again and the admins do not change *)
Theorem C38_stays_disabled (g : group) (os : list gate_op) (k : Z) :
  (forall o, In o os -> match o with GSet s _ => s | GEdit s _ _ => s end <> g_admin g) ->
  0 <= k < 128 -> is_ix_enabled g k = false ->
  is_ix_enabled (gate_run g os) k = false /\ g_admin (gate_run g os) = g_admin g /\
  g_security (gate_run g os) = g_security g.
Proof.
  revert g. induction os as [|o os IH]; intros g Hs Hk H; cbn [gate_run]; [tauto|].
  assert (Hs' : forall o', In o' os -> match o' with GSet s _ => s | GEdit s _ _ => s end <> g_admin g) by (intros; apply Hs; right; assumption).
  pose proof (Hs o (or_introl eq_refl)) as Ho.
  destruct (gate_step g o) as [g'|] eqn:E; [|apply IH; assumption].
  destruct o as [s x|s a b]; cbn [gate_step] in E.
  - destruct (C38_who_may_set g s x) as [W1 W2]. destruct (proj1 W1 (ex_intro _ g' E)) as [?|[_ Hb]]; [congruence|].
    destruct (W2 g' E) as (G1 & G2 & G3). rewrite <- G2, <- G3.
    apply IH; [rewrite G2; exact Hs'|exact Hk|]. unfold is_ix_enabled in *. rewrite G1.
    apply negb_false_iff in H. rewrite (Hb k Hk H). reflexivity.
  - unfold group_edit in E. destruct (Z.eqb_spec (g_admin g) s); [congruence|discriminate].
Qed.
Example C38_stays_disabled_ex :
  is_ix_enabled (gate_run (mkGroup 7 8 5) [GSet 8 7; GSet 8 1; GEdit 8 (Some 8) None; GSet 9 0]) 2 = false /\
  is_ix_enabled (gate_run (mkGroup 7 8 5) [GSet 8 7; GSet 7 1]) 2 = true.
Proof. split; vm_compute; reflexivity. Qed.
Print Assumptions C38_stays_disabled.

(** C38: an instruction whose own gate is disabled is rejected, except five for which the
    gate is defined but never checked, and serum3_place_order, which falls through to its v2 gate *)
Theorem C38_disabled_rejected (g : group) (i : ix) (k : Z) (writable : bool) :
  own_gate i = Some k -> is_ix_enabled g k = false ->
  ~ In i [Ix_group_create; Ix_serum3_edit_market; Ix_openbook_v2_edit_market; Ix_openbook_v2_cancel_order;
          Ix_openbook_v2_cancel_all_orders; Ix_serum3_place_order] ->
  admitted g i writable = false.
Proof.
  intros H1 H2 H3. destruct i; cbn [own_gate] in H1; try discriminate H1;
    try (exfalso; apply H3; cbn [In]; tauto); inversion H1; subst k; clear H1 H3;
    unfold admitted, serum3_place_gate; cbn [gates_checked forallb]; rewrite ?H2; try reflexivity.
Qed.
Example C38_disabled_rejected_ex :
  own_gate Ix_token_withdraw = Some 47 /\ is_ix_enabled (mkGroup 7 8 (2 ^ 47)) 47 = false /\
  admitted (mkGroup 7 8 (2 ^ 47)) Ix_token_withdraw true = false /\ admitted (mkGroup 7 8 (2 ^ 47)) Ix_token_deposit true = true.
Proof. repeat split; vm_compute; reflexivity. Qed.
Print Assumptions C38_disabled_rejected.

(** C38: serum3_place_order (v1) runs exactly if v1 is enabled and is not promoted, or v2
    is enabled and the receiver bank is writable *)
Theorem C38_serum3_place_order (g : group) (writable : bool) :
  (admitted g Ix_serum3_place_order writable = true <->
     is_ix_enabled g 33 = true \/ (is_ix_enabled g 71 = true /\ writable = true)) /\
  (admitted g Ix_serum3_place_order_v2 writable = true <-> is_ix_enabled g 71 = true /\ writable = true).
Proof.
  unfold admitted, serum3_place_gate. cbn [gates_checked forallb].
  destruct (is_ix_enabled g 33), (is_ix_enabled g 71), writable; cbn; split; split; intuition discriminate.
Qed.
Example C38_serum3_place_order_ex : admitted (mkGroup 7 8 (2 ^ 33)) Ix_serum3_place_order true = true /\
  admitted (mkGroup 7 8 (2 ^ 33)) Ix_serum3_place_order false = false.
Proof. split; vm_compute; reflexivity. Qed.
Print Assumptions C38_serum3_place_order.

(** C38: "a disabled instruction is rejected" is false for gates that no code reads: setting
    the gates Serum3EditMarket, OpenbookV2EditMarket, OpenbookV2CancelOrder and GroupCreate stops nothing *)
Theorem C38_all_gates_checked_refuted :
  exists g i k, own_gate i = Some k /\ is_ix_enabled g k = false /\ admitted g i true = true.
Proof. exists (mkGroup 7 8 (2 ^ 31)), Ix_serum3_edit_market, 31. repeat split; vm_compute; reflexivity. Qed.
Print Assumptions C38_all_gates_checked_refuted.

(** C38: a gate only concerns instructions that check it: with gates that agree on the bits
    an instruction checks, it is treated the same *)
Theorem C38_other_gates (g g' : group) (i : ix) (w : bool) :
  (forall k, In k (gates_checked i) -> Z.testbit (g_gate g) k = Z.testbit (g_gate g') k) ->
  i <> Ix_serum3_place_order -> i <> Ix_serum3_place_order_v2 ->
  admitted g i w = admitted g' i w.
Proof.
  intros H N1 N2. unfold admitted. f_equal.
  - induction (gates_checked i) as [|k l IH]; [reflexivity|]. cbn [forallb]. rewrite IH by (intros; apply H; right; assumption).
    unfold is_ix_enabled. rewrite (H k (or_introl eq_refl)). reflexivity.
  - destruct i; try reflexivity; congruence.
Qed.
Example C38_other_gates_ex : admitted (mkGroup 7 8 (2 ^ 47)) Ix_token_deposit true = admitted (mkGroup 1 2 0) Ix_token_deposit true.
Proof. vm_compute; reflexivity. Qed.
Print Assumptions C38_other_gates.
