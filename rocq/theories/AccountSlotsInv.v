(** The account invariant over all histories. *)
From Coq Require Import ZArith List Bool Lia.
From Verif Require Import OrderTree AccountSlots AccountSlotsSpec AccountSlotsFacts.
Import ListNotations.
Open Scope Z_scope.

Definition perp_use (k : markets) (t : Z) (p : pslot) := p_active p && (settle_of k (p_market p) =? t).
Definition base_use (k : markets) (t : Z) (p : sslot) := s_active p && (base_of k (s_market p) =? t).
Definition quote_use (k : markets) (t : Z) (p : sslot) := s_active p && (quote_of k (s_market p) =? t).
Definition buy_use (t : Z) (c : cslot) := c_on c && (c_buy c =? t).
Definition sell_use (t : Z) (c : cslot) := c_on c && (c_sell c =? t).

Definition uses (k : markets) (a : acct) (t : Z) : Z :=
  cnt (perp_use k t) (perps a) + cnt (base_use k t) (sers a) + cnt (quote_use k t) (sers a)
  + cnt (buy_use t) (swaps a) + cnt (sell_use t) (swaps a).

Definition ser_ok (k : markets) (p : sslot) : Prop :=
  s_active p = true -> s_base p = base_of k (s_market p) /\ s_quote p = quote_of k (s_market p)
    /\ real_index (base_of k (s_market p)) /\ real_index (quote_of k (s_market p)).
Definition perp_ok (k : markets) (p : pslot) : Prop :=
  p_active p = true -> real_index (settle_of k (p_market p)).
Definition swap_ok (c : cslot) : Prop := c_on c = true -> real_index (c_buy c) /\ real_index (c_sell c).

Definition rest_ok (k : markets) (a : acct) : Prop :=
  (forall m, m <> idx_max -> cnt (sis m) (sers a) <= 1)
  /\ (forall m, m <> idx_max -> cnt (pis m) (perps a) <= 1)
  /\ (forall p, In p (sers a) -> ser_ok k p)
  /\ (forall p, In p (perps a) -> perp_ok k p)
  /\ (forall c, In c (swaps a) -> swap_ok c).

Definition inv (k : markets) (a : acct) : Prop := tok_inv (toks a) (uses k a) /\ rest_ok k a.

Lemma uses_nonneg : forall k a t, 0 <= uses k a t.
Proof.
  intros. unfold uses. pose proof (cnt_nonneg _ (perp_use k t) (perps a)).
  pose proof (cnt_nonneg _ (base_use k t) (sers a)). pose proof (cnt_nonneg _ (quote_use k t) (sers a)).
  pose proof (cnt_nonneg _ (buy_use t) (swaps a)). pose proof (cnt_nonneg _ (sell_use t) (swaps a)). lia.
Qed.

Lemma uses_rest : forall k a b t, same_rest a b -> uses k b t = uses k a t.
Proof. intros k a b t [H1 [H2 [H3 _]]]. unfold uses. rewrite H1, H2, H3. reflexivity. Qed.

Lemma real_max : forall x, real_index x -> x <> idx_max.
Proof. unfold real_index, idx_max. intros; lia. Qed.

Lemma rest_same : forall k a b, same_rest a b -> rest_ok k a -> rest_ok k b.
Proof. intros k a b [R1 [R2 [R3 _]]]. unfold rest_ok. rewrite R1, R2, R3. auto. Qed.

Lemma inv_intro : forall k a b u, rest_ok k a -> same_rest a b -> tok_inv (toks b) u ->
  (forall t, t <> idx_max -> u t = uses k a t) -> inv k b.
Proof.
  intros k a b u HO HR HT HU. split; [|eapply rest_same; eauto].
  apply tok_inv_ext with (u := u); auto.
  - intros t N. rewrite (uses_rest k a b t HR). auto.
  - intros. apply uses_nonneg.
Qed.

Lemma cnt_is_default : forall k t n, cnt (perp_use k t) (repeat p_default n) = 0 /\
  cnt (base_use k t) (repeat s_default n) = 0 /\ cnt (quote_use k t) (repeat s_default n) = 0
  /\ cnt (buy_use t) (repeat c_default n) = 0 /\ cnt (sell_use t) (repeat c_default n) = 0.
Proof. intros. split; [|split; [|split; [|split]]]; apply cnt_repeat; reflexivity. Qed.

Lemma inv_new : forall k nt ns np nc, inv k (new_acct nt ns np nc).
Proof.
  intros. unfold inv, rest_ok, new_acct, uses. cbn [toks sers perps swaps].
  assert (HU : forall t, uses k (new_acct nt ns np nc) t = 0).
  { intros t. unfold uses, new_acct. cbn [toks sers perps swaps].
    destruct (cnt_is_default k t np) as [A _]. destruct (cnt_is_default k t ns) as [_ [B [C _]]].
    destruct (cnt_is_default k t nc) as [_ [_ [_ [D E]]]]. lia. }
  split; [|split; [|split; [|split; [|split]]]].
  - split; [|split; [|split]].
    + intros t N. rewrite cnt_repeat; [lia|]. unfold tis. cbn [t_index t_default]. apply Z.eqb_neq. auto.
    + intros p Hp Ha. apply repeat_spec in Hp. subst p. discriminate.
    + intros t N Ht. pose proof (HU t) as X. unfold uses, new_acct in X. cbn [toks sers perps swaps] in X. lia.
    + intros t. apply (uses_nonneg k (new_acct nt ns np nc)).
  - intros m N. rewrite cnt_repeat; [lia|]. unfold sis. cbn [s_market s_default]. apply Z.eqb_neq. auto.
  - intros m N. rewrite cnt_repeat; [lia|]. unfold pis. cbn [p_market p_default]. apply Z.eqb_neq. auto.
  - intros p Hp. apply repeat_spec in Hp. subst p. intros H. discriminate H.
  - intros p Hp. apply repeat_spec in Hp. subst p. intros H. discriminate H.
  - intros p Hp. apply repeat_spec in Hp. subst p. intros H. discriminate H.
Qed.

Lemma upd_upd : forall A (l : list A) i x y, upd (upd l i x) i y = upd l i y.
Proof. induction l; intros [|i] x y; simpl; auto. f_equal; auto. Qed.

Lemma b2z_sym : forall x y, b2z (x =? y) = b2z (y =? x).
Proof. intros. rewrite Z.eqb_sym. reflexivity. Qed.

Lemma serum_create_inv : forall k a m v a1, real_index m -> real_index (base_of k m) -> real_index (quote_of k m) ->
  inv k a -> serum_create k a m v = Some a1 -> inv k a1.
Proof.
  intros k a m v a1 Rm Rb Rq HI H. unfold serum_create, create_serum in H.
  destruct (position (fun p => s_market p =? m) (sers a)) eqn:E1; [discriminate|].
  destruct (position (fun p => negb (s_active p)) (sers a)) as [i|] eqn:E2; [|discriminate].
  cbn [sers set_sers] in H. rewrite upd_upd in H.
  set (a2 := set_sers (set_sers a (upd (sers a) i (mkS m idx_max idx_max 0)))
               (upd (sers a) i (mkS m (base_of k m) (quote_of k m) v))) in H.
  destruct (position_some _ _ _ _ E2) as [p [H1 [H2 _]]]. apply negb_true_iff in H2.
  assert (Hm : s_market p = idx_max) by (unfold s_active in H2; apply negb_false_iff, Z.eqb_eq in H2; exact H2).
  destruct HI as [HT [HS [HP [K1 [K2 K3]]]]].
  destruct (ensure_and_use a2 (quote_of k m)) as [a3|] eqn:E3; [|discriminate].
  destruct (ensure_and_use_inv a2 (quote_of k m) (uses k a) a3 (real_max _ Rq) HT E3) as [HT3 HR3].
  destruct (ensure_and_use_inv a3 (base_of k m) _ a1 (real_max _ Rb) HT3 H) as [HT4 HR4].
  pose proof (same_rest_trans _ _ _ HR3 HR4) as HR.
  apply inv_intro with (a := a2) (2 := HR) (3 := HT4).
  - unfold rest_ok. cbn [sers perps swaps a2 set_sers].
    split; [|split; [exact HP|split; [|split; [exact K2|exact K3]]]].
    + intros x Nx. rewrite (cnt_upd _ _ _ _ _ _ H1). unfold sis at 2 3. cbn [s_market]. rewrite Hm.
      rewrite (proj2 (Z.eqb_neq idx_max x)) by congruence.
      destruct (Z.eqb_spec m x) as [->|N]; unfold b2z; [|pose proof (HS x Nx); lia].
      rewrite cnt_zero; [lia|]. apply (position_none _ _ _ E1).
    + intros q Hq. apply in_upd in Hq. destruct Hq as [->|Hq]; [|apply K1; exact Hq].
      intros _. cbn [s_market s_base s_quote]. auto.
  - intros t _.
    unfold plus1, uses. cbn [sers perps swaps a2 set_sers]. rewrite !(cnt_upd _ _ _ _ _ _ H1).
    unfold base_use at 3 4. unfold quote_use at 3 4. rewrite H2. cbn [andb s_market]. unfold s_active. cbn [s_market].
    rewrite (proj2 (Z.eqb_neq m idx_max)) by (apply real_max; auto). cbn [negb andb].
    rewrite (b2z_sym t (base_of k m)), (b2z_sym t (quote_of k m)). change (b2z false) with 0. lia.
Qed.

Lemma find_use : forall A (f : A -> bool) l p i, nth_error l i = Some p -> f p = true -> 1 <= cnt f l.
Proof. intros. apply (cnt_pos _ _ _ p); [eapply nth_error_In; eauto|auto]. Qed.

Lemma uses_base : forall k a i p, nth_error (sers a) i = Some p -> s_active p = true ->
  1 <= uses k a (base_of k (s_market p)) /\ 1 <= uses k a (quote_of k (s_market p)) /\
  (base_of k (s_market p) = quote_of k (s_market p) -> 2 <= uses k a (base_of k (s_market p))).
Proof.
  intros k a i p Hi Ha. unfold uses.
  set (b := base_of k (s_market p)). set (q := quote_of k (s_market p)).
  assert (Hb : 1 <= cnt (base_use k b) (sers a)).
  { apply (find_use _ _ _ p i Hi). unfold base_use. rewrite Ha. apply Z.eqb_refl. }
  assert (Hq : 1 <= cnt (quote_use k q) (sers a)).
  { apply (find_use _ _ _ p i Hi). unfold quote_use. rewrite Ha. apply Z.eqb_refl. }
  assert (N : forall t, 0 <= cnt (perp_use k t) (perps a) /\ 0 <= cnt (buy_use t) (swaps a) /\
                        0 <= cnt (sell_use t) (swaps a) /\ 0 <= cnt (base_use k t) (sers a) /\ 0 <= cnt (quote_use k t) (sers a))
    by (intros; split; [|split; [|split; [|split]]]; apply cnt_nonneg).
  pose proof (N b). pose proof (N q). split; [lia|]. split; [lia|].
  intros E. rewrite <- E in Hq. lia.
Qed.

Lemma uses_perp : forall k a i p, nth_error (perps a) i = Some p -> p_active p = true ->
  1 <= uses k a (settle_of k (p_market p)).
Proof.
  intros k a i p Hi Ha. unfold uses. set (b := settle_of k (p_market p)).
  assert (Hb : 1 <= cnt (perp_use k b) (perps a)).
  { apply (find_use _ _ _ p i Hi). unfold perp_use. rewrite Ha. apply Z.eqb_refl. }
  pose proof (cnt_nonneg _ (base_use k b) (sers a)). pose proof (cnt_nonneg _ (quote_use k b) (sers a)).
  pose proof (cnt_nonneg _ (buy_use b) (swaps a)). pose proof (cnt_nonneg _ (sell_use b) (swaps a)). lia.
Qed.

Lemma uses_swap : forall k a i c, nth_error (swaps a) i = Some c -> c_on c = true ->
  1 <= uses k a (c_buy c) /\ 1 <= uses k a (c_sell c) /\ (c_buy c = c_sell c -> 2 <= uses k a (c_buy c)).
Proof.
  intros k a i c Hi Ha. unfold uses.
  assert (Hb : 1 <= cnt (buy_use (c_buy c)) (swaps a)).
  { apply (find_use _ _ _ c i Hi). unfold buy_use. rewrite Ha. apply Z.eqb_refl. }
  assert (Hq : 1 <= cnt (sell_use (c_sell c)) (swaps a)).
  { apply (find_use _ _ _ c i Hi). unfold sell_use. rewrite Ha. apply Z.eqb_refl. }
  assert (N : forall t, 0 <= cnt (perp_use k t) (perps a) /\ 0 <= cnt (buy_use t) (swaps a) /\
                        0 <= cnt (sell_use t) (swaps a) /\ 0 <= cnt (base_use k t) (sers a) /\ 0 <= cnt (quote_use k t) (sers a))
    by (intros; split; [|split; [|split; [|split]]]; apply cnt_nonneg).
  pose proof (N (c_buy c)). pose proof (N (c_sell c)). split; [lia|]. split; [lia|].
  intros E. rewrite <- E in Hq. lia.
Qed.

Lemma minus1_le : forall u t x, (t = x -> 2 <= u t) -> 1 <= u x -> 1 <= minus1 u t x.
Proof. intros u t x H1 H2. unfold minus1. destruct (Z.eqb_spec x t) as [->|N]; unfold b2z; [specialize (H1 eq_refl); lia|lia]. Qed.

Lemma ser_active : forall p m, real_index m -> s_market p = m -> s_active p = true.
Proof. intros p m R H. unfold s_active. apply negb_true_iff, Z.eqb_neq. rewrite H. apply real_max; auto. Qed.
Lemma perp_active : forall p m, real_index m -> p_market p = m -> p_active p = true.
Proof. intros p m R H. unfold p_active. apply negb_true_iff, Z.eqb_neq. rewrite H. apply real_max; auto. Qed.

(** closing a serum slot; also: with the right open orders key it cannot fail *)
Lemma serum_close_inv : forall k a m v a1, real_index m -> real_index (base_of k m) -> real_index (quote_of k m) ->
  inv k a -> serum_close k a m v = Some a1 -> inv k a1.
Proof.
  intros k a m v a1 Rm Rb Rq HI H. unfold serum_close in H.
  destruct (position (fun p => s_market p =? m) (sers a)) as [i|] eqn:E1; [|discriminate].
  destruct (position_some _ _ _ _ E1) as [p [H1 [H2 _]]]. apply Z.eqb_eq in H2. rewrite H1 in H.
  destruct (negb (s_val p =? v)); [discriminate|].
  pose proof (ser_active p m Rm H2) as Ha.
  destruct HI as [HT HO]. destruct (uses_base k a i p H1 Ha) as [U1 [U2 U3]]. rewrite H2 in U1, U2, U3.
  destruct (release a (base_of k m)) as [a2|] eqn:E2; [|discriminate].
  destruct (release_inv a (base_of k m) _ a2 (real_max _ Rb) HT U1 E2) as [HT2 HR2].
  destruct (release a2 (quote_of k m)) as [a3|] eqn:E3; [|discriminate].
  destruct (release_inv a2 (quote_of k m) _ a3 (real_max _ Rq) HT2 (minus1_le _ _ _ U3 U2) E3) as [HT3 HR3].
  pose proof (same_rest_trans _ _ _ HR2 HR3) as HR. pose proof (rest_same k a a3 HR HO) as HO3.
  unfold deactivate_serum in H. pose proof HR as [R1 [R2 [R3 R4]]]. rewrite R1, E1, H1 in H. injection H as <-.
  destruct HO3 as [HS [HP [K1 [K2 K3]]]].
  split.
  - cbn [toks set_sers]. apply tok_inv_ext with (3 := HT3).
    + intros t _. unfold minus1, uses. cbn [sers perps swaps set_sers]. rewrite R2, R3.
      rewrite !(cnt_upd _ _ _ _ _ _ H1). unfold base_use at 3 4. unfold quote_use at 3 4.
      rewrite Ha, H2. cbn [andb]. unfold s_active. cbn [s_market]. rewrite Z.eqb_refl. cbn [negb andb].
      rewrite (b2z_sym t (base_of k m)), (b2z_sym t (quote_of k m)). change (b2z false) with 0. lia.
    + intros. apply uses_nonneg.
  - unfold rest_ok. cbn [sers perps swaps set_sers]. rewrite R1 in *.
    split; [|split; [exact HP|split; [|split; [exact K2|exact K3]]]].
    + intros x Nx. rewrite (cnt_upd _ _ _ _ _ _ H1). unfold sis at 2 3. cbn [s_market].
      rewrite (proj2 (Z.eqb_neq idx_max x)) by congruence. pose proof (HS x Nx).
      destruct (s_market p =? x); unfold b2z; lia.
    + intros q Hq. apply in_upd in Hq. destruct Hq as [->|Hq]; [|apply K1; exact Hq].
      intros HH. discriminate HH.
Qed.

Lemma serum_close_ok : forall k a i p, real_index (s_market p) -> inv k a ->
  nth_error (sers a) i = Some p -> exists a1, serum_close k a (s_market p) (s_val p) = Some a1.
Proof.
  intros k a i p Rm [HT HO] Hi. unfold serum_close.
  pose proof (ser_active p _ Rm eq_refl) as Ha.
  assert (HO' := HO). destruct HO' as [HS [HP [K1 [K2 K3]]]].
  destruct (K1 p (nth_error_In _ _ Hi) Ha) as [_ [_ [Rb Rq]]].
  destruct (position (fun q => s_market q =? s_market p) (sers a)) as [j|] eqn:E.
  - destruct (position_some _ _ _ _ E) as [q [H1 [H2 _]]]. apply Z.eqb_eq in H2. rewrite H1.
    assert (q = p).
    { destruct (Nat.eq_dec i j) as [<-|N]; [congruence|]. exfalso.
      assert (2 <= cnt (sis (s_market p)) (sers a)).
      { apply (cnt_two _ _ _ i j p q); auto; unfold sis; apply Z.eqb_eq; auto. }
      pose proof (HS (s_market p) (real_max _ Rm)). lia. }
    subst q. rewrite Z.eqb_refl. cbn [negb].
    destruct (uses_base k a i p Hi Ha) as [U1 [U2 U3]].
    destruct (release_ok a (base_of k (s_market p)) _ (real_max _ Rb) HT U1) as [a2 E2]. rewrite E2.
    destruct (release_inv _ _ _ _ (real_max _ Rb) HT U1 E2) as [HT2 HR2].
    destruct (release_ok a2 (quote_of k (s_market p)) _ (real_max _ Rq) HT2 (minus1_le _ _ _ U3 U2)) as [a3 E3]. rewrite E3.
    destruct (release_inv _ _ _ _ (real_max _ Rq) HT2 (minus1_le _ _ _ U3 U2) E3) as [HT3 HR3].
    destruct (same_rest_trans _ _ _ HR2 HR3) as [R1 _].
    unfold deactivate_serum. rewrite R1, E, H1. eauto.
  - exfalso. pose proof (position_none _ _ _ E p (nth_error_In _ _ Hi)) as X. cbn beta in X. rewrite Z.eqb_refl in X. discriminate.
Qed.

Lemma ensure_perp_inv : forall k a m a1 raw, real_index m -> real_index (settle_of k m) ->
  inv k a -> ensure_perp a m (settle_of k m) = Some (a1, raw) -> inv k a1.
Proof.
  intros k a m a1 raw Rm Rs HI H. unfold ensure_perp in H.
  destruct (position (fun p => p_market p =? m) (perps a)) as [i|] eqn:E1.
  { injection H as <- _. exact HI. }
  destruct (position (fun p => negb (p_active p)) (perps a)) as [i|] eqn:E2; [|discriminate].
  destruct (position_some _ _ _ _ E2) as [p [H1 [H2 _]]]. apply negb_true_iff in H2.
  assert (Hm : p_market p = idx_max) by (unfold p_active in H2; apply negb_false_iff, Z.eqb_eq in H2; exact H2).
  destruct HI as [HT [HS [HP [K1 [K2 K3]]]]].
  destruct (ensure_and_use (set_perps a (upd (perps a) i (mkP m 0))) (settle_of k m)) as [a3|] eqn:E3; [|discriminate].
  injection H as <- _.
  destruct (ensure_and_use_inv (set_perps a (upd (perps a) i (mkP m 0))) (settle_of k m) (uses k a) a3 (real_max _ Rs) HT E3) as [HT3 HR3].
  apply inv_intro with (2 := HR3) (3 := HT3).
  - unfold rest_ok. cbn [sers perps swaps set_perps].
    split; [exact HS|split; [|split; [exact K1|split; [|exact K3]]]].
    + intros x Nx. rewrite (cnt_upd _ _ _ _ _ _ H1). unfold pis at 2 3. cbn [p_market]. rewrite Hm.
      rewrite (proj2 (Z.eqb_neq idx_max x)) by congruence.
      destruct (Z.eqb_spec m x) as [->|N]; unfold b2z; [|pose proof (HP x Nx); lia].
      rewrite cnt_zero; [lia|]. apply (position_none _ _ _ E1).
    + intros q Hq. apply in_upd in Hq. destruct Hq as [->|Hq]; [|apply K2; exact Hq].
      intros _. cbn [p_market]. auto.
  - intros t _. unfold plus1, uses. cbn [sers perps swaps set_perps]. rewrite !(cnt_upd _ _ _ _ _ _ H1).
    unfold perp_use at 3 4. rewrite H2. unfold p_active. cbn [p_market].
    rewrite (proj2 (Z.eqb_neq m idx_max)) by (apply real_max; auto). cbn [negb andb].
    rewrite (b2z_sym t (settle_of k m)). change (b2z false) with 0. lia.
Qed.

Lemma deactivate_perp_inv : forall k a m a1, real_index m -> real_index (settle_of k m) ->
  inv k a -> deactivate_perp a m (settle_of k m) = Some a1 -> inv k a1.
Proof.
  intros k a m a1 Rm Rs HI H. unfold deactivate_perp in H.
  destruct (position (fun p => p_market p =? m) (perps a)) as [i|] eqn:E1; [|discriminate].
  destruct (position_some _ _ _ _ E1) as [p [H1 [H2 _]]]. apply Z.eqb_eq in H2. rewrite H1 in H.
  pose proof (perp_active p m Rm H2) as Ha.
  destruct HI as [HT [HS [HP [K1 [K2 K3]]]]].
  pose proof (uses_perp k a i p H1 Ha) as U. rewrite H2 in U.
  destruct (release_inv (set_perps a (upd (perps a) i (mkP idx_max (p_val p)))) (settle_of k m) (uses k a) a1 (real_max _ Rs) HT U H) as [HT3 HR3].
  apply inv_intro with (2 := HR3) (3 := HT3).
  - unfold rest_ok. cbn [sers perps swaps set_perps].
    split; [exact HS|split; [|split; [exact K1|split; [|exact K3]]]].
    + intros x Nx. rewrite (cnt_upd _ _ _ _ _ _ H1). unfold pis at 2 3. cbn [p_market].
      rewrite (proj2 (Z.eqb_neq idx_max x)) by congruence. pose proof (HP x Nx).
      destruct (p_market p =? x); unfold b2z; lia.
    + intros q Hq. apply in_upd in Hq. destruct Hq as [->|Hq]; [|apply K2; exact Hq].
      intros HH. discriminate HH.
  - intros t _. unfold minus1, uses. cbn [sers perps swaps set_perps]. rewrite !(cnt_upd _ _ _ _ _ _ H1).
    unfold perp_use at 3 4. rewrite Ha, H2. unfold p_active. cbn [p_market]. rewrite Z.eqb_refl. cbn [negb andb].
    rewrite (b2z_sym t (settle_of k m)). change (b2z false) with 0. lia.
Qed.

Lemma deactivate_perp_ok : forall k a i p, real_index (p_market p) -> inv k a ->
  nth_error (perps a) i = Some p -> exists a1, deactivate_perp a (p_market p) (settle_of k (p_market p)) = Some a1.
Proof.
  intros k a i p Rm [HT [HS [HP [K1 [K2 K3]]]]] Hi. unfold deactivate_perp.
  pose proof (perp_active p _ Rm eq_refl) as Ha.
  pose proof (K2 p (nth_error_In _ _ Hi) Ha) as Rs.
  destruct (position (fun q => p_market q =? p_market p) (perps a)) as [j|] eqn:E.
  - destruct (position_some _ _ _ _ E) as [q [H1 [H2 _]]]. rewrite H1.
    apply (release_ok (set_perps a (upd (perps a) j (mkP idx_max (p_val q)))) (settle_of k (p_market p)) (uses k a)); [apply real_max; auto|exact HT|]. apply (uses_perp k a i p); auto.
  - exfalso. pose proof (position_none _ _ _ E p (nth_error_In _ _ Hi)) as X. cbn beta in X. rewrite Z.eqb_refl in X. discriminate.
Qed.

Lemma swap_create_inv : forall k a b s v a1, real_index b -> real_index s ->
  inv k a -> swap_create a b s v = Some a1 -> inv k a1.
Proof.
  intros k a b s v a1 Rb Rs HI H. unfold swap_create in H.
  destruct HI as [HT HO].
  destruct (ensure_and_use a b) as [a2|] eqn:E2; [|discriminate].
  destruct (ensure_and_use_inv a b _ a2 (real_max _ Rb) HT E2) as [HT2 HR2].
  destruct (ensure_and_use a2 s) as [a3|] eqn:E3; [|discriminate].
  destruct (ensure_and_use_inv a2 s _ a3 (real_max _ Rs) HT2 E3) as [HT3 HR3].
  pose proof (same_rest_trans _ _ _ HR2 HR3) as HR.
  destruct (position (fun c => negb (c_on c)) (swaps a3)) as [i|] eqn:E4; [|discriminate].
  destruct (b =? s); [discriminate|]. injection H as <-.
  destruct (position_some _ _ _ _ E4) as [c [H1 [H2 _]]]. apply negb_true_iff in H2.
  pose proof HR as [R1 [R2 [R3 R4]]]. destruct (rest_same k a a3 HR HO) as [HS [HP [K1 [K2 K3]]]].
  split.
  - cbn [toks set_swaps]. apply tok_inv_ext with (3 := HT3).
    + intros t _. unfold plus1. rewrite <- (uses_rest k a a3 t HR). unfold uses. cbn [sers perps swaps set_swaps].
      rewrite !(cnt_upd _ _ _ _ _ _ H1). unfold buy_use at 3 4. unfold sell_use at 3 4.
      rewrite H2. cbn [andb c_on c_buy c_sell]. rewrite (b2z_sym t b), (b2z_sym t s). change (b2z false) with 0. lia.
    + intros. apply uses_nonneg.
  - unfold rest_ok. cbn [sers perps swaps set_swaps].
    split; [exact HS|split; [exact HP|split; [exact K1|split; [exact K2|]]]].
    intros q Hq. apply in_upd in Hq. destruct Hq as [->|Hq]; [|apply K3; exact Hq].
    intros _. cbn [c_buy c_sell]. auto.
Qed.

Lemma swap_close_inv : forall k a i id db ds a1,
  inv k a -> swap_close a i id db ds = Some a1 -> inv k a1.
Proof.
  intros k a i id db ds a1 HI H. unfold swap_close in H.
  destruct (nth_error (swaps a) i) as [c|] eqn:H1; [|discriminate].
  destruct (c_on c) eqn:Hc; [|discriminate]. cbn [negb] in H.
  destruct (negb (c_id c =? id)); [discriminate|].
  destruct HI as [HT [HS [HP [K1 [K2 K3]]]]].
  destruct (K3 c (nth_error_In _ _ H1) Hc) as [Rb Rs].
  destruct (uses_swap k a i c H1 Hc) as [U1 [U2 U3]].
  destruct (decrement_dust (set_swaps a (upd (swaps a) i c_default) (next_id a)) (c_buy c) db) as [a2|] eqn:E2; [|discriminate].
  destruct (decrement_dust_inv (set_swaps a (upd (swaps a) i c_default) (next_id a)) (c_buy c) db (uses k a) a2 (real_max _ Rb) HT U1 E2) as [HT2 HR2].
  destruct (decrement_dust_inv a2 (c_sell c) ds _ a1 (real_max _ Rs) HT2 (minus1_le _ _ _ U3 U2) H) as [HT3 HR3].
  pose proof (same_rest_trans _ _ _ HR2 HR3) as HR.
  apply inv_intro with (2 := HR) (3 := HT3).
  - unfold rest_ok. cbn [sers perps swaps set_swaps].
    split; [exact HS|split; [exact HP|split; [exact K1|split; [exact K2|]]]].
    intros q Hq. apply in_upd in Hq. destruct Hq as [->|Hq]; [|apply K3; exact Hq].
    intros HH. discriminate HH.
  - intros t _. unfold minus1, uses. cbn [sers perps swaps set_swaps]. rewrite !(cnt_upd _ _ _ _ _ _ H1).
    unfold buy_use at 3 4. unfold sell_use at 3 4. rewrite Hc. cbn [c_on c_default andb].
    rewrite (b2z_sym t (c_buy c)), (b2z_sym t (c_sell c)). change (b2z false) with 0. lia.
Qed.

Lemma swap_close_ok : forall k a i c db ds, inv k a -> nth_error (swaps a) i = Some c -> c_on c = true ->
  exists a1, swap_close a i (c_id c) db ds = Some a1.
Proof.
  intros k a i c db ds [HT [HS [HP [K1 [K2 K3]]]]] Hi Hc. unfold swap_close. rewrite Hi, Hc, Z.eqb_refl. cbn [negb].
  destruct (K3 c (nth_error_In _ _ Hi) Hc) as [Rb Rs].
  destruct (uses_swap k a i c Hi Hc) as [U1 [U2 U3]].
  destruct (decrement_dust_ok (set_swaps a (upd (swaps a) i c_default) (next_id a)) (c_buy c) db (uses k a)
              (real_max _ Rb) HT U1) as [a2 E2]. rewrite E2.
  destruct (decrement_dust_inv (set_swaps a (upd (swaps a) i c_default) (next_id a)) (c_buy c) db (uses k a) a2 (real_max _ Rb) HT U1 E2) as [HT2 HR2].
  apply (decrement_dust_ok a2 (c_sell c) ds _ (real_max _ Rs) HT2). apply minus1_le; auto.
Qed.

(** resizing *)
Lemma refit_cnt : forall A (on f : A -> bool) d l n l', refit on d l n = Some l' ->
  (forall p, f p = true -> on p = true) -> f d = false -> cnt f l' = cnt f l.
Proof.
  intros A on f d l n l' H Hf Hd. unfold refit in H.
  destruct (Nat.leb (length (filter on l)) n); [|discriminate]. injection H as <-.
  rewrite cnt_app, cnt_filter, cnt_repeat by auto. lia.
Qed.

Lemma refit_in : forall A (on : A -> bool) d l n l' p, refit on d l n = Some l' -> In p l' -> p = d \/ In p l.
Proof.
  intros A on d l n l' p H Hp. unfold refit in H.
  destruct (Nat.leb (length (filter on l)) n); [|discriminate]. injection H as <-.
  apply in_app_or in Hp. destruct Hp as [Hp|Hp].
  - apply filter_In in Hp. right. tauto.
  - apply repeat_spec in Hp. auto.
Qed.

Lemma resize_inv : forall k a nt ns np nc a1, inv k a -> resize_slots a nt ns np nc = Some a1 -> inv k a1.
Proof.
  intros k a nt ns np nc a1 [HT [HS [HP [K1 [K2 K3]]]]] H. unfold resize_slots in H.
  destruct (refit t_active t_default (toks a) nt) as [t'|] eqn:Et; [|discriminate].
  destruct (refit s_active s_default (sers a) ns) as [s'|] eqn:Es; [|discriminate].
  destruct (refit p_active p_default (perps a) np) as [p'|] eqn:Ep; [|discriminate].
  destruct (refit c_on c_default (swaps a) nc) as [c'|] eqn:Ec; [|discriminate].
  injection H as <-.
  assert (HU : forall t, uses k (mkAcct t' s' p' c' (next_id a)) t = uses k a t).
  { intros t. unfold uses. cbn [sers perps swaps].
    rewrite (refit_cnt _ _ (perp_use k t) _ _ _ _ Ep), (refit_cnt _ _ (base_use k t) _ _ _ _ Es),
      (refit_cnt _ _ (quote_use k t) _ _ _ _ Es), (refit_cnt _ _ (buy_use t) _ _ _ _ Ec),
      (refit_cnt _ _ (sell_use t) _ _ _ _ Ec); try reflexivity; intros p Hp;
      unfold perp_use, base_use, quote_use, buy_use, sell_use in Hp; apply andb_true_iff in Hp; tauto. }
  assert (HTI : forall t, t <> idx_max -> cnt (tis t) t' = cnt (tis t) (toks a)).
  { intros t N. apply (refit_cnt _ _ _ _ _ _ _ Et).
    - intros p Hp. apply Z.eqb_eq in Hp. apply active_idx. congruence.
    - apply Z.eqb_neq. cbn [t_index t_default]. congruence. }
  split; [|split; [|split; [|split; [|split]]]]; cbn [toks sers perps swaps].
  - destruct HT as [A [B [C D]]]. split; [|split; [|split]].
    + intros t N. rewrite HTI by auto. auto.
    + intros p Hp Ha. rewrite HU. destruct (refit_in _ _ _ _ _ _ _ Et Hp) as [->|Hin]; [discriminate Ha|auto].
    + intros t N. rewrite HU, HTI by auto. apply C. auto.
    + intros. apply uses_nonneg.
  - intros m N. rewrite (refit_cnt _ _ _ _ _ _ _ Es); [auto| |].
    + intros p Hp. apply Z.eqb_eq in Hp. unfold s_active. apply negb_true_iff, Z.eqb_neq. congruence.
    + apply Z.eqb_neq. cbn [s_market s_default]. congruence.
  - intros m N. rewrite (refit_cnt _ _ _ _ _ _ _ Ep); [auto| |].
    + intros p Hp. apply Z.eqb_eq in Hp. unfold p_active. apply negb_true_iff, Z.eqb_neq. congruence.
    + apply Z.eqb_neq. cbn [p_market p_default]. congruence.
  - intros p Hp. destruct (refit_in _ _ _ _ _ _ _ Es Hp) as [->|Hin]; [intros X; discriminate X|auto].
  - intros p Hp. destruct (refit_in _ _ _ _ _ _ _ Ep Hp) as [->|Hin]; [intros X; discriminate X|auto].
  - intros p Hp. destruct (refit_in _ _ _ _ _ _ _ Ec Hp) as [->|Hin]; [intros X; discriminate X|auto].
Qed.

Lemma astep_inv : forall k a o a1, names_real k o -> inv k a -> astep k a o = Some a1 -> inv k a1.
Proof.
  intros k a o a1 Hn HI H. destruct o; cbn [astep names_real] in *.
  - destruct (ensure_token a t) as [[[a2 raw] act]|] eqn:E; [|discriminate]. injection H as <-.
    destruct HI as [HT HO].
    destruct (ensure_token_inv a t _ a2 raw act (real_max _ Hn) HT E) as [HT2 [HR _]].
    apply inv_intro with (1 := HO) (2 := HR) (3 := HT2). auto.
  - destruct (nth_error (toks a) raw) as [p|] eqn:E; [|discriminate]. injection H as <-.
    destruct HI as [HT HO]. apply inv_intro with (1 := HO) (u := uses k a); auto; [apply same_rest_toks|].
    cbn [toks set_toks]. destruct (Z.eq_dec (t_index p) idx_max) as [N|N].
    + rewrite N. apply tok_inv_free with (p := p); auto. congruence.
    + pose proof HT as [A [B [C D]]]. apply tok_inv_same with (u := uses k a) (p := p); auto.
      cbn [t_uses]. apply B; [eapply nth_error_In; eauto|apply active_idx; auto].
  - destruct HI as [HT HO]. destruct (deactivate_inv _ _ _ _ HT H) as [HT2 HR].
    apply inv_intro with (1 := HO) (2 := HR) (3 := HT2). auto.
  - destruct Hn as [? [? ?]]. apply (serum_create_inv k a m v a1); auto.
  - destruct Hn as [? [? ?]]. apply (serum_close_inv k a m v a1); auto.
  - destruct Hn as [? ?]. destruct (ensure_perp a m (settle_of k m)) as [[a2 raw]|] eqn:E; [|discriminate]. injection H as <-.
    apply (ensure_perp_inv k a m a2 raw); auto.
  - destruct (nth_error (perps a) raw) as [p|] eqn:E; [|discriminate]. injection H as <-.
    destruct HI as [HT [HS [HP [K1 [K2 K3]]]]].
    assert (HU : forall t, uses k (set_perps a (upd (perps a) raw (mkP (p_market p) v))) t = uses k a t).
    { intros t. unfold uses. cbn [sers perps swaps set_perps]. rewrite (cnt_upd _ _ _ _ _ _ E).
      unfold perp_use at 2 3. unfold p_active. cbn [p_market]. lia. }
    split; [|split; [|split; [|split; [|split]]]]; cbn [toks sers perps swaps set_perps]; auto.
    + apply tok_inv_ext with (3 := HT); [intros; symmetry; apply HU|intros; apply uses_nonneg].
    + intros m N. rewrite (cnt_upd _ _ _ _ _ _ E). unfold pis at 2 3. cbn [p_market]. pose proof (HP m N). lia.
    + intros q Hq. apply in_upd in Hq. destruct Hq as [->|Hq]; [|auto].
      intros Ha. apply (K2 p (nth_error_In _ _ E) Ha).
  - destruct Hn as [? ?]. apply (deactivate_perp_inv k a m a1); auto.
  - destruct Hn as [? ?]. apply (swap_create_inv k a buy sell v a1); auto.
  - destruct (nth_error (swaps a) i) as [p|] eqn:E; [|discriminate]. injection H as <-.
    destruct HI as [HT [HS [HP [K1 [K2 K3]]]]].
    assert (HU : forall t, uses k (set_swaps a (upd (swaps a) i (mkC (c_on p) (c_id p) (c_buy p) (c_sell p) v)) (next_id a)) t = uses k a t).
    { intros t. unfold uses. cbn [sers perps swaps set_swaps]. rewrite !(cnt_upd _ _ _ _ _ _ E).
      unfold buy_use at 2 3. unfold sell_use at 2 3. cbn [c_on c_buy c_sell]. lia. }
    split; [|split; [|split; [|split; [|split]]]]; cbn [toks sers perps swaps set_swaps]; auto.
    + apply tok_inv_ext with (3 := HT); [intros; symmetry; apply HU|intros; apply uses_nonneg].
    + intros q Hq. apply in_upd in Hq. destruct Hq as [->|Hq]; [|auto].
      intros Ha. apply (K3 p (nth_error_In _ _ E) Ha).
  - eapply swap_close_inv; eauto.
  - eapply resize_inv; eauto.
Qed.

Lemma arun_inv : forall k ops a, Forall (names_real k) ops -> inv k a -> inv k (arun k a ops).
Proof.
  induction ops as [|o r IH]; intros a HF HI; [exact HI|]. inversion HF as [|? ? Ho Hr]; subst. cbn [arun].
  apply IH; [exact Hr|]. destruct (astep k a o) eqn:E; [eapply astep_inv; eauto|exact HI].
Qed.

Lemma reachable_inv : forall k a, reachable k a -> inv k a.
Proof. intros k a [nt [ns [np [nc [ops [HF ->]]]]]]. apply arun_inv; [exact HF|apply inv_new]. Qed.

(** the specification's counts *)
Lemma times_cons : forall t x l, times t (x :: l) = b2z (x =? t) + times t l.
Proof.
  intros. unfold times. simpl. destruct (Z.eq_dec x t) as [->|N].
  - rewrite Z.eqb_refl. unfold b2z. lia.
  - rewrite (proj2 (Z.eqb_neq x t)) by auto. unfold b2z. lia.
Qed.

Lemma times_cnt : forall A (h : A -> Z) (f : Z -> Z) t l,
  times t (map f (filter (fun x => negb (x =? 65535)) (map h l)))
  = cnt (fun p => negb (h p =? 65535) && (f (h p) =? t)) l.
Proof.
  induction l as [|x l IH]; [reflexivity|]. simpl map. simpl filter. rewrite cnt_cons.
  destruct (negb (h x =? 65535)) eqn:E; simpl map; [rewrite times_cons|]; rewrite IH; simpl; reflexivity.
Qed.

Lemma times_swap : forall (f : cslot -> Z) t l, times t (map f (filter c_on l)) = cnt (fun c => c_on c && (f c =? t)) l.
Proof.
  induction l as [|x l IH]; [reflexivity|]. simpl filter. rewrite cnt_cons.
  destruct (c_on x) eqn:E; simpl map; [rewrite times_cons|]; rewrite IH; reflexivity.
Qed.

Lemma needed_uses : forall k a t, needed k a t = uses k a t.
Proof.
  intros. unfold needed, open_perps, open_serums, open_swaps. rewrite !times_cnt, !times_swap. reflexivity.
Qed.

Lemma open_nodup : forall A (h : A -> Z) l, (forall t, t <> 65535 -> cnt (fun p => h p =? t) l <= 1) ->
  NoDup (filter (fun x => negb (x =? 65535)) (map h l)).
Proof.
  induction l as [|x l IH]; intros H; simpl; [constructor|].
  assert (HH : forall t, t <> 65535 -> cnt (fun p => h p =? t) l <= 1).
  { intros t N. pose proof (H t N) as X. rewrite cnt_cons in X. destruct (h x =? t); unfold b2z in X; lia. }
  destruct (Z.eqb_spec (h x) 65535) as [E|E]; simpl; [apply IH; exact HH|].
  constructor; [|apply IH; exact HH]. intros Hin. apply filter_In in Hin. destruct Hin as [Hin _].
  apply in_map_iff in Hin. destruct Hin as [y [Hy Hin]]. pose proof (H (h x) E) as X. rewrite cnt_cons, Z.eqb_refl in X.
  assert (1 <= cnt (fun p => h p =? h x) l) by (apply (cnt_pos _ _ _ y Hin); apply Z.eqb_eq; auto).
  unfold b2z in X. lia.
Qed.
