(** C32 and C64: the slots of a mango account. *)
From Coq Require Import ZArith List Bool Lia.
From Verif Require Import OrderTree AccountSlots AccountSlotsSpec AccountSlotsFacts AccountSlotsInv.
Import ListNotations.
Open Scope Z_scope.

(** ** C32: after any history no two active slots refer to the same token, serum
    market or perp market. *)
Theorem C32_slots_unique : forall k a, reachable k a ->
  NoDup (open_tokens a) /\ NoDup (open_serums a) /\ NoDup (open_perps a).
Proof.
  intros k a H. destruct (reachable_inv k a H) as [[HT _] [HS [HP _]]].
  split; [apply open_nodup; exact HT|]. split; apply open_nodup; assumption.
Qed.
Print Assumptions C32_slots_unique.

Lemma in_open : forall A (h : A -> Z) l t, t <> 65535 ->
  (In t (filter (fun x => negb (x =? 65535)) (map h l)) <-> exists p, In p l /\ h p = t).
Proof.
  intros A h l t N. rewrite filter_In, in_map_iff. split.
  - intros [[p [Hp Hi]] _]. eauto.
  - intros [p [Hi Hp]]. split; [eauto|]. apply negb_true_iff, Z.eqb_neq. exact N.
Qed.

Lemma full_open : forall A (h : A -> Z) l,
  (forall p, In p l -> negb (negb (h p =? 65535)) = false) <->
  length (filter (fun x => negb (x =? 65535)) (map h l)) = length l.
Proof.
  induction l as [|x l IH]; simpl; [split; [reflexivity|intros _ p []]|].
  assert (LE : le (length (filter (fun x => negb (x =? 65535)) (map h l))) (length l)).
  { clear. induction l as [|y l IH]; simpl; [lia|]. destruct (negb (h y =? 65535)); simpl; lia. }
  destruct (negb (h x =? 65535)) eqn:E; simpl.
  - split.
    + intros H. f_equal. apply IH. intros p Hp. apply H. auto.
    + intros H p [<-|Hp]; [rewrite E; reflexivity|]. apply IH; [lia|exact Hp].
  - split.
    + intros H. specialize (H x (or_introl eq_refl)). rewrite E in H. discriminate H.
    + intros H. lia.
Qed.

Lemma position_none_iff : forall A (f : A -> bool) l, position f l = None <-> forall p, In p l -> f p = false.
Proof.
  intros A f l. split; [apply position_none|]. induction l as [|x l IH]; intros H; [reflexivity|]. simpl.
  rewrite (H x (or_introl eq_refl)). rewrite IH; [reflexivity|]. intros; apply H; right; auto.
Qed.

Lemma open_before : forall l i, act_before l i
  = length (filter (fun x => negb (x =? 65535)) (map t_index (firstn i l))).
Proof.
  intros l i. unfold act_before. generalize (firstn i l). clear l i. induction l as [|p l IH]; [reflexivity|]. simpl.
  unfold t_active at 1. change idx_max with 65535. destruct (negb (t_index p =? 65535)); simpl; congruence.
Qed.

(** [ensure_token_position]: the returned slot is for the requested token, no
    other slot and nothing else of the account changes; an existing position is
    returned untouched, a new one is empty and takes a free slot; the returned
    active index is the number of active positions before the slot. *)
Theorem C32_ensure_token : forall a t a1 raw act, real_index t ->
  ensure_token a t = Some (a1, raw, act) ->
  (exists p, nth_error (toks a1) raw = Some p /\ t_index p = t) /\
  (forall j, j <> raw -> nth_error (toks a1) j = nth_error (toks a) j) /\
  length (toks a1) = length (toks a) /\
  sers a1 = sers a /\ perps a1 = perps a /\ swaps a1 = swaps a /\ next_id a1 = next_id a /\
  (In t (open_tokens a) -> a1 = a) /\
  (~ In t (open_tokens a) ->
     nth_error (toks a1) raw = Some (mkT t 0 0) /\
     exists p, nth_error (toks a) raw = Some p /\ t_index p = 65535) /\
  act = length (filter (fun x => negb (x =? 65535)) (map t_index (firstn raw (toks a1)))).
Proof.
  intros a t a1 raw act R H. pose proof (real_max t R) as N. rewrite ensure_token_eq in H by exact N.
  destruct (position (tis t) (toks a)) as [i|] eqn:E.
  - injection H as <- <- <-. destruct (position_some _ _ _ _ E) as [p [H1 [H2 _]]]. apply Z.eqb_eq in H2.
    split; [eauto|]. split; [auto|]. split; [auto|]. split; [auto|]. split; [auto|]. split; [auto|]. split; [auto|].
    split; [auto|]. split; [|apply open_before].
    intros HN. exfalso. apply HN. apply in_open; [exact N|]. exists p. split; [eapply nth_error_In; eauto|exact H2].
  - destruct (position (fun p => negb (t_active p)) (toks a)) as [i|] eqn:E2; [|discriminate].
    injection H as <- <- <-. destruct (position_some _ _ _ _ E2) as [p [H1 [H2 _]]].
    cbn [toks sers perps swaps next_id set_toks].
    split; [exists (mkT t 0 0); split; [eapply nth_upd_same; eauto|reflexivity]|].
    split; [intros j Nj; apply nth_upd_other; auto|]. split; [apply upd_length|].
    split; [auto|]. split; [auto|]. split; [auto|]. split; [auto|]. split; [|split].
    + intros HI. exfalso. apply in_open in HI; [|exact N]. destruct HI as [q [Hq Ht]].
      pose proof (position_none _ _ _ E q Hq) as X. unfold tis in X. rewrite Ht, Z.eqb_refl in X. discriminate.
    + intros _. split; [eapply nth_upd_same; eauto|]. exists p. split; [exact H1|].
      apply negb_true_iff in H2. apply inactive_idx in H2. exact H2.
    + rewrite open_before. f_equal. f_equal. f_equal.
      clear. revert i. induction (toks a) as [|x l IH]; intros [|i]; simpl; auto. f_equal. apply IH.
Qed.
Print Assumptions C32_ensure_token.

(** it fails only when the token has no position and all slots are taken *)
Theorem C32_ensure_token_fails : forall a t, real_index t ->
  (ensure_token a t = None <->
   ~ In t (open_tokens a) /\ length (open_tokens a) = length (toks a)).
Proof.
  intros a t R. pose proof (real_max t R) as N. rewrite ensure_token_eq by exact N. unfold open_tokens.
  rewrite <- full_open. rewrite in_open by exact N.
  destruct (position (tis t) (toks a)) as [i|] eqn:E.
  - destruct (position_some _ _ _ _ E) as [p [H1 [H2 _]]]. apply Z.eqb_eq in H2. split; [discriminate|].
    intros [HN _]. exfalso. apply HN. exists p. split; [eapply nth_error_In; eauto|exact H2].
  - destruct (position (fun p => negb (t_active p)) (toks a)) as [i|] eqn:E2.
    + split; [discriminate|]. intros [_ HF]. exfalso.
      destruct (position_some _ _ _ _ E2) as [p [H1 [H2 _]]]. pose proof (HF p (nth_error_In _ _ H1)) as X. unfold t_active in H2. change idx_max with 65535 in H2. congruence.
    + split; [intros _|reflexivity]. split; [|exact (position_none _ _ _ E2)].
      intros [p [Hp Ht]]. pose proof (position_none _ _ _ E p Hp) as X. unfold tis in X. rewrite Ht, Z.eqb_refl in X. discriminate.
Qed.
Print Assumptions C32_ensure_token_fails.

(** [create_serum3_orders] *)
Theorem C32_create_serum : forall a m, real_index m ->
  (forall a1 raw, create_serum a m = Some (a1, raw) ->
     ~ In m (open_serums a) /\
     (exists p, nth_error (sers a1) raw = Some p /\ s_market p = m) /\
     (exists p, nth_error (sers a) raw = Some p /\ s_market p = 65535) /\
     (forall j, j <> raw -> nth_error (sers a1) j = nth_error (sers a) j) /\
     toks a1 = toks a /\ perps a1 = perps a /\ swaps a1 = swaps a) /\
  (create_serum a m = None <-> In m (open_serums a) \/ length (open_serums a) = length (sers a)).
Proof.
  intros a m R. pose proof (real_max m R) as N. unfold create_serum, open_serums. rewrite <- full_open, in_open by exact N.
  destruct (position (fun p => s_market p =? m) (sers a)) as [i|] eqn:E.
  - destruct (position_some _ _ _ _ E) as [p [H1 [H2 _]]]. apply Z.eqb_eq in H2.
    split; [intros; discriminate|]. split; [|reflexivity]. intros _. left. exists p. split; [eapply nth_error_In; eauto|auto].
  - assert (HN : ~ exists p, In p (sers a) /\ s_market p = m).
    { intros [p [Hp Ht]]. pose proof (position_none _ _ _ E p Hp) as X. cbn beta in X. rewrite Ht, Z.eqb_refl in X. discriminate. }
    destruct (position (fun p => negb (s_active p)) (sers a)) as [i|] eqn:E2.
    + destruct (position_some _ _ _ _ E2) as [p [H1 [H2 _]]]. split.
      * intros a1 raw H. injection H as <- <-. split; [rewrite in_open by exact N; exact HN|]. cbn [toks sers perps swaps set_sers].
        split; [eexists; split; [eapply nth_upd_same; eauto|reflexivity]|].
        split; [exists p; split; [exact H1|]; unfold s_active in H2; rewrite negb_involutive in H2; apply Z.eqb_eq; exact H2|].
        split; [intros j Nj; apply nth_upd_other; auto|]. auto.
      * split; [discriminate|]. intros [X|X]; [contradiction|]. exfalso.
        pose proof (X p (nth_error_In _ _ H1)) as Y. unfold s_active in H2. change idx_max with 65535 in H2. congruence.
    + split; [intros; discriminate|]. split; [|reflexivity]. intros _. right. exact (position_none _ _ _ E2).
Qed.
Print Assumptions C32_create_serum.

(** [ensure_perp_position]: same, and the settle token position is ensured too;
    it fails only when there is no position and no free slot, or when the settle
    token cannot get a slot, or at 65535 uses of the settle token. *)
Theorem C32_ensure_perp : forall a m st a1 raw, real_index m -> real_index st ->
  ensure_perp a m st = Some (a1, raw) ->
  (exists p, nth_error (perps a1) raw = Some p /\ p_market p = m) /\
  (forall j, j <> raw -> nth_error (perps a1) j = nth_error (perps a) j) /\
  length (perps a1) = length (perps a) /\ sers a1 = sers a /\ swaps a1 = swaps a /\
  (In m (open_perps a) -> a1 = a) /\
  (~ In m (open_perps a) -> nth_error (perps a1) raw = Some (mkP m 0) /\ In st (open_tokens a1) /\
     exists p, nth_error (perps a) raw = Some p /\ p_market p = 65535).
Proof.
  intros a m st a1 raw R Rs H. pose proof (real_max m R) as N. unfold ensure_perp in H.
  destruct (position (fun p => p_market p =? m) (perps a)) as [i|] eqn:E.
  - injection H as <- <-. destruct (position_some _ _ _ _ E) as [p [H1 [H2 _]]]. apply Z.eqb_eq in H2.
    split; [eauto|]. split; [auto|]. split; [auto|]. split; [auto|]. split; [auto|]. split; [auto|].
    intros HN. exfalso. apply HN. apply in_open; [exact N|]. exists p. split; [eapply nth_error_In; eauto|exact H2].
  - destruct (position (fun p => negb (p_active p)) (perps a)) as [i|] eqn:E2; [|discriminate].
    destruct (ensure_and_use (set_perps a (upd (perps a) i (mkP m 0))) st) as [a2|] eqn:E3; [|discriminate].
    injection H as <- <-. destruct (position_some _ _ _ _ E2) as [p [H1 [H2 _]]].
    set (a0 := set_perps a (upd (perps a) i (mkP m 0))) in *.
    assert (HR : same_rest a0 a2 /\ In st (open_tokens a2)).
    { unfold ensure_and_use in E3. destruct (ensure_token a0 st) as [[[a3 r3] ac]|] eqn:E4; [|discriminate].
      destruct (C32_ensure_token a0 st a3 r3 ac Rs E4) as [[q [Q1 Q2]] [_ [_ [S1 [S2 [S3 [S4 _]]]]]]].
      unfold increment_in_use in E3. rewrite Q1 in E3. destruct (t_uses q + 1 <=? idx_max); [|discriminate].
      injection E3 as <-. split; [split; [exact S1|split; [exact S2|split; [exact S3|exact S4]]]|].
      apply in_open; [apply real_max; exact Rs|]. cbn [toks set_toks].
      eexists. split; [eapply nth_error_In; eapply nth_upd_same; eauto|exact Q2]. }
    destruct HR as [[S1 [S2 [S3 S4]]] HIn]. rewrite S1, S2, S3. cbn [a0 perps sers swaps set_perps].
    split; [exists (mkP m 0); split; [eapply nth_upd_same; eauto|reflexivity]|].
    split; [intros j Nj; apply nth_upd_other; auto|]. split; [apply upd_length|]. split; [auto|]. split; [auto|].
    split.
    + intros HI. exfalso. apply in_open in HI; [|exact N]. destruct HI as [q [Hq Ht]].
      pose proof (position_none _ _ _ E q Hq) as X. cbn beta in X. rewrite Ht, Z.eqb_refl in X. discriminate.
    + intros _. split; [eapply nth_upd_same; eauto|]. split; [exact HIn|]. exists p. split; [exact H1|].
      unfold p_active in H2. rewrite negb_involutive in H2. apply Z.eqb_eq. exact H2.
Qed.
Print Assumptions C32_ensure_perp.

Theorem C32_ensure_perp_fails : forall a m st, real_index m -> real_index st ->
  ensure_perp a m st = None ->
  ~ In m (open_perps a) /\
  (length (open_perps a) = length (perps a)
   \/ (~ In st (open_tokens a) /\ length (open_tokens a) = length (toks a))
   \/ exists p, In p (toks a) /\ t_index p = st /\ 65535 <= t_uses p).
Proof.
  intros a m st R Rs H. pose proof (real_max m R) as N. unfold ensure_perp in H.
  destruct (position (fun p => p_market p =? m) (perps a)) as [i|] eqn:E; [discriminate|].
  split.
  { intros HI. apply in_open in HI; [|exact N]. destruct HI as [q [Hq Ht]].
    pose proof (position_none _ _ _ E q Hq) as X. cbn beta in X. rewrite Ht, Z.eqb_refl in X. discriminate. }
  destruct (position (fun p => negb (p_active p)) (perps a)) as [i|] eqn:E2.
  - right. set (a0 := set_perps a (upd (perps a) i (mkP m 0))) in *.
    unfold ensure_and_use in H. destruct (ensure_token a0 st) as [[[a3 r3] ac]|] eqn:E4.
    + destruct (C32_ensure_token a0 st a3 r3 ac Rs E4) as [[q [Q1 Q2]] [_ [_ [_ [_ [_ [_ [HO [HN _]]]]]]]]].
      unfold increment_in_use in H. rewrite Q1 in H. destruct (t_uses q + 1 <=? idx_max) eqn:EL; [discriminate|].
      apply Z.leb_gt in EL. unfold idx_max in EL. right.
      destruct (in_dec Z.eq_dec st (open_tokens a0)) as [HI|HI].
      * rewrite (HO HI) in Q1. exists q. split; [apply nth_error_In in Q1; exact Q1|]. split; [exact Q2|lia].
      * destruct (HN HI) as [X _]. rewrite X in Q1. injection Q1 as <-. cbn [t_uses] in EL. lia.
    + left. apply C32_ensure_token_fails in E4; [|exact Rs]. exact E4.
  - left. apply full_open. exact (position_none _ _ _ E2).
Qed.
Print Assumptions C32_ensure_perp_fails.

(** Conditional swap ids: as long as fewer than 2^64 instructions were executed,
    all configured swaps of an account have different ids, so a (slot, id) pair
    given to cancel or trigger never hits another swap than the one meant. *)
Definition swap_ids (a : acct) : list Z := map c_id (open_swaps a).

Definition id_inv (a : acct) : Prop :=
  (forall c, In c (swaps a) -> c_on c = true -> 0 <= c_id c < next_id a) /\
  (forall x, cnt (fun c => c_on c && (c_id c =? x)) (swaps a) <= 1).

Lemma id_inv_rest : forall a b, same_rest a b -> id_inv a -> id_inv b.
Proof. intros a b [_ [_ [R3 R4]]]. unfold id_inv. rewrite R3, R4. auto. Qed.

Lemma ensure_token_rest : forall a t a1 r ac, ensure_token a t = Some (a1, r, ac) -> same_rest a a1.
Proof.
  intros a t a1 r ac H. unfold ensure_token in H. destruct (ensure_scan (toks a) 0 0 t None) as [[x y]|]; [|discriminate].
  destruct (nth_error (toks a) x) as [p|]; [|discriminate]. destruct (t_index p =? t); injection H as <- _ _;
    [apply same_rest_refl|apply same_rest_toks].
Qed.

Lemma ensure_and_use_rest : forall a t a1, ensure_and_use a t = Some a1 -> same_rest a a1.
Proof.
  intros a t a1 H. unfold ensure_and_use in H. destruct (ensure_token a t) as [[[a2 r] ac]|] eqn:E; [|discriminate].
  unfold increment_in_use in H. destruct (nth_error (toks a2) r); [|discriminate].
  destruct (t_uses t0 + 1 <=? idx_max); [|discriminate]. injection H as <-.
  eapply same_rest_trans; [eapply ensure_token_rest; eauto|apply same_rest_toks].
Qed.

Lemma decrement_rest : forall a raw a1, decrement_in_use a raw = Some a1 -> same_rest a a1.
Proof. intros a raw a1 H. unfold decrement_in_use in H. destruct (nth_error (toks a) raw); [|discriminate]. injection H as <-. apply same_rest_toks. Qed.

Lemma deactivate_rest : forall a raw a1, deactivate_token a raw = Some a1 -> same_rest a a1.
Proof.
  intros a raw a1 H. unfold deactivate_token in H. destruct (nth_error (toks a) raw); [|discriminate].
  destruct (t_uses t =? 0); [|discriminate]. injection H as <-. apply same_rest_toks.
Qed.

Lemma release_rest : forall a t a1, release a t = Some a1 -> same_rest a a1.
Proof. intros a t a1 H. unfold release in H. destruct (token_position a t); [|discriminate]. eapply decrement_rest; eauto. Qed.

Lemma dust_rest : forall a t d a1, decrement_dust a t d = Some a1 -> same_rest a a1.
Proof.
  intros a t d a1 H. unfold decrement_dust in H. destruct (token_position a t); [|injection H as <-; apply same_rest_refl].
  destruct (decrement_in_use a n) as [a2|] eqn:E; [|discriminate]. apply decrement_rest in E.
  destruct (nth_error (toks a2) n); [|discriminate]. destruct (negb (0 <? t_uses t0) && d).
  - eapply same_rest_trans; [exact E|]. eapply deactivate_rest; eauto.
  - injection H as <-. exact E.
Qed.

Lemma id_step : forall k a o a1, id_inv a -> 0 <= next_id a -> next_id a + 1 < 2 ^ 64 ->
  astep k a o = Some a1 -> id_inv a1 /\ next_id a <= next_id a1 <= next_id a + 1.
Proof.
  intros k a o a1 HI H0 HB H.
  assert (KEEP : forall b, same_rest a b -> id_inv b /\ next_id a <= next_id b <= next_id a + 1).
  { intros b HR. split; [eapply id_inv_rest; eauto|]. destruct HR as [_ [_ [_ ->]]]. lia. }
  assert (KEEP2 : forall b, swaps b = swaps a -> next_id b = next_id a -> id_inv b /\ next_id a <= next_id b <= next_id a + 1).
  { intros b E1 E2. unfold id_inv. rewrite E1, E2. split; [exact HI|lia]. }
  destruct o; cbn [astep] in H.
  - destruct (ensure_token a t) as [[[a2 r] ac]|] eqn:E; [|discriminate]. injection H as <-. apply KEEP. eapply ensure_token_rest; eauto.
  - destruct (nth_error (toks a) raw); [|discriminate]. injection H as <-. apply KEEP. apply same_rest_toks.
  - apply KEEP. eapply deactivate_rest; eauto.
  - unfold serum_create in H. destruct (create_serum a m) as [[a2 r]|] eqn:E; [|discriminate].
    unfold create_serum in E. destruct (position (fun p => s_market p =? m) (sers a)); [discriminate|].
    destruct (position (fun p => negb (s_active p)) (sers a)) eqn:E1; [|discriminate]. injection E as <- <-.
    match type of H with match ?X with _ => _ end = _ => destruct X as [a3|] eqn:E3; [|discriminate] end.
    apply ensure_and_use_rest in E3. apply ensure_and_use_rest in H.
    destruct (same_rest_trans _ _ _ E3 H) as [_ [_ [R3 R4]]]. apply KEEP2; [rewrite R3; reflexivity|rewrite R4; reflexivity].
  - unfold serum_close in H. destruct (position (fun p => s_market p =? m) (sers a)); [|discriminate].
    destruct (nth_error (sers a) n); [|discriminate]. destruct (negb (s_val s =? v)); [discriminate|].
    destruct (release a (base_of k m)) as [a2|] eqn:E2; [|discriminate]. apply release_rest in E2.
    destruct (release a2 (quote_of k m)) as [a3|] eqn:E3; [|discriminate]. apply release_rest in E3.
    destruct (same_rest_trans _ _ _ E2 E3) as [_ [_ [R3 R4]]].
    unfold deactivate_serum in H. destruct (position (fun p => s_market p =? m) (sers a3)); [|discriminate].
    destruct (nth_error (sers a3) n0); [|discriminate]. injection H as <-. apply KEEP2; [exact R3|exact R4].
  - destruct (ensure_perp a m (settle_of k m)) as [[a2 r]|] eqn:E; [|discriminate]. injection H as <-.
    unfold ensure_perp in E. destruct (position (fun p => p_market p =? m) (perps a)).
    + injection E as <- <-. apply KEEP. apply same_rest_refl.
    + destruct (position (fun p => negb (p_active p)) (perps a)); [|discriminate].
      match type of E with match ?X with _ => _ end = _ => destruct X as [a3|] eqn:E3; [|discriminate] end.
      injection E as <- <-. apply ensure_and_use_rest in E3. destruct E3 as [_ [_ [R3 R4]]]. apply KEEP2; [exact R3|exact R4].
  - destruct (nth_error (perps a) raw); [|discriminate]. injection H as <-. apply KEEP2; reflexivity.
  - unfold deactivate_perp in H. destruct (position (fun p => p_market p =? m) (perps a)); [|discriminate].
    destruct (nth_error (perps a) n); [|discriminate]. apply release_rest in H. destruct H as [_ [_ [R3 R4]]]. apply KEEP2; [exact R3|exact R4].
  - unfold swap_create in H. destruct (ensure_and_use a buy) as [a2|] eqn:E2; [|discriminate]. apply ensure_and_use_rest in E2.
    destruct (ensure_and_use a2 sell) as [a3|] eqn:E3; [|discriminate]. apply ensure_and_use_rest in E3.
    pose proof (same_rest_trans _ _ _ E2 E3) as HR. pose proof HR as [_ [_ [R3 R4]]].
    destruct (position (fun c => negb (c_on c)) (swaps a3)) as [i|] eqn:E4; [|discriminate].
    destruct (buy =? sell); [discriminate|]. injection H as <-.
    destruct (position_some _ _ _ _ E4) as [c [H1 [H2 _]]]. apply negb_true_iff in H2.
    cbn [next_id set_swaps]. rewrite R4. rewrite Z.mod_small by lia. split; [|lia].
    unfold id_inv. cbn [swaps next_id set_swaps]. rewrite R3 in *. destruct HI as [I1 I2]. split.
    + intros q Hq Hon. apply in_upd in Hq. destruct Hq as [->|Hq]; [cbn [c_id]; lia|]. pose proof (I1 q Hq Hon). lia.
    + intros x. rewrite (cnt_upd _ _ _ _ _ _ H1). rewrite H2. cbn [andb c_on c_id].
      destruct (Z.eqb_spec (next_id a) x) as [E|E]; unfold b2z; [|pose proof (I2 x); lia].
      rewrite cnt_zero; [lia|]. intros q Hq. destruct (c_on q) eqn:Eq; [|reflexivity]. cbn [andb].
      apply Z.eqb_neq. pose proof (I1 q Hq Eq). lia.
  - destruct (nth_error (swaps a) i) as [p|] eqn:E; [|discriminate]. injection H as <-. cbn [next_id set_swaps]. split; [|lia].
    destruct HI as [I1 I2]. unfold id_inv. cbn [swaps next_id set_swaps]. split.
    + intros q Hq Hon. apply in_upd in Hq. destruct Hq as [->|Hq]; [|auto]. apply (I1 p (nth_error_In _ _ E) Hon).
    + intros x. rewrite (cnt_upd _ _ _ _ _ _ E). cbn [c_on c_id]. pose proof (I2 x). lia.
  - unfold swap_close in H. destruct (nth_error (swaps a) i) as [c|] eqn:E; [|discriminate].
    destruct (negb (c_on c)); [discriminate|]. destruct (negb (c_id c =? id)); [discriminate|].
    match type of H with match ?X with _ => _ end = _ => destruct X as [a3|] eqn:E3; [|discriminate] end.
    apply dust_rest in E3. apply dust_rest in H. destruct (same_rest_trans _ _ _ E3 H) as [_ [_ [R3 R4]]].
    cbn [swaps next_id set_swaps] in R3, R4. rewrite R4. split; [|lia].
    destruct HI as [I1 I2]. unfold id_inv. rewrite R3, R4. split.
    + intros q Hq Hon. apply in_upd in Hq. destruct Hq as [->|Hq]; [discriminate Hon|auto].
    + intros x. rewrite (cnt_upd _ _ _ _ _ _ E). cbn [c_on c_default andb]. pose proof (I2 x).
      destruct (c_on c && (c_id c =? x)); unfold b2z; lia.
  - unfold resize_slots in H.
    destruct (refit t_active t_default (toks a) nt); [|discriminate].
    destruct (refit s_active s_default (sers a) ns); [|discriminate].
    destruct (refit p_active p_default (perps a) np); [|discriminate].
    destruct (refit c_on c_default (swaps a) nc) as [c'|] eqn:Ec; [|discriminate].
    injection H as <-. cbn [next_id]. split; [|lia]. destruct HI as [I1 I2]. unfold id_inv. cbn [swaps next_id]. split.
    + intros q Hq Hon. destruct (refit_in _ _ _ _ _ _ _ Ec Hq) as [->|Hin]; [discriminate Hon|auto].
    + intros x. rewrite (refit_cnt _ _ (fun c => c_on c && (c_id c =? x)) _ _ _ _ Ec); [auto| |reflexivity].
      intros p Hp. apply andb_true_iff in Hp. tauto.
Qed.

Lemma id_run : forall k ops a, id_inv a -> 0 <= next_id a -> next_id a + Z.of_nat (length ops) < 2 ^ 64 ->
  id_inv (arun k a ops).
Proof.
  induction ops as [|o r IH]; intros a HI H0 HB; [exact HI|]. cbn [arun]. change (length (o :: r)) with (S (length r)) in HB.
  rewrite Nat2Z.inj_succ in HB. unfold Z.succ in HB.
  destruct (astep k a o) as [a1|] eqn:E; [|apply IH; auto; lia].
  destruct (id_step k a o a1 HI H0) as [HI1 HN]; [lia|exact E|]. apply IH; [exact HI1|lia|lia].
Qed.

Theorem C32_swap_ids_unique : forall k nt ns np nc ops,
  Z.of_nat (length ops) < 2 ^ 64 ->
  NoDup (swap_ids (arun k (new_acct nt ns np nc) ops)).
Proof.
  intros k nt ns np nc ops HB.
  assert (HI : id_inv (arun k (new_acct nt ns np nc) ops)).
  { apply id_run; [|reflexivity|exact HB]. unfold id_inv, new_acct. cbn [swaps]. split.
    - intros c Hc Hon. apply repeat_spec in Hc. subst c. discriminate.
    - intros x. rewrite cnt_repeat; [lia|reflexivity]. }
  destruct HI as [_ H]. revert H. unfold swap_ids, open_swaps. generalize (swaps (arun k (new_acct nt ns np nc) ops)).
  induction l as [|c l IH]; intros H; simpl; [constructor|].
  assert (HH : forall x, cnt (fun c => c_on c && (c_id c =? x)) l <= 1).
  { intros x. pose proof (H x) as X. rewrite cnt_cons in X. destruct (c_on c && (c_id c =? x)); unfold b2z in X; lia. }
  destruct (c_on c) eqn:E; simpl; [|apply IH; exact HH]. constructor; [|apply IH; exact HH].
  intros Hin. apply in_map_iff in Hin. destruct Hin as [d [Hd Hin]]. apply filter_In in Hin. destruct Hin as [Hin Hon].
  pose proof (H (c_id c)) as X. rewrite cnt_cons, E, Z.eqb_refl in X. cbn [andb] in X.
  assert (1 <= cnt (fun c0 => c_on c0 && (c_id c0 =? c_id c)) l).
  { apply (cnt_pos _ _ _ d Hin). rewrite Hon, Hd, Z.eqb_refl. reflexivity. }
  unfold b2z in X. lia.
Qed.
Print Assumptions C32_swap_ids_unique.

(** ** C64: token positions that something else needs stay open. *)
Theorem C64_in_use_is_needed : forall k a, reachable k a ->
  (forall raw p, nth_error (toks a) raw = Some p -> t_index p <> 65535 -> t_uses p = needed k a (t_index p)) /\
  (forall t, real_index t -> 0 < needed k a t -> In t (open_tokens a)).
Proof.
  intros k a H. destruct (reachable_inv k a H) as [[A [B [C D]]] _]. split.
  - intros raw p Hp N. rewrite needed_uses. apply B; [eapply nth_error_In; eauto|apply active_idx; exact N].
  - intros t R Hn. rewrite needed_uses in Hn. apply in_open; [apply real_max; exact R|].
    pose proof (C t (real_max t R) Hn) as X. apply cnt_pos_ex in X. destruct X as [p [Hp Ht]]. exists p. split; [exact Hp|].
    apply Z.eqb_eq. exact Ht.
Qed.
Print Assumptions C64_in_use_is_needed.

(** No accepted instruction closes the position of a token that stays needed. *)
Theorem C64_needed_stays_open : forall k a o a1 t, reachable k a -> names_real k o -> real_index t ->
  astep k a o = Some a1 -> 0 < needed k a1 t -> In t (open_tokens a1).
Proof.
  intros k a o a1 t HR Hn R H HN. pose proof (astep_inv k a o a1 Hn (reachable_inv k a HR) H) as [[A [B [C D]]] _].
  rewrite needed_uses in HN. apply in_open; [apply real_max; exact R|].
  pose proof (C t (real_max t R) HN) as X. apply cnt_pos_ex in X. destruct X as [p [Hp Ht]]. exists p. split; [exact Hp|].
  apply Z.eqb_eq. exact Ht.
Qed.
Print Assumptions C64_needed_stays_open.

(** Closing what an account has open never fails for want of a token position. *)
Theorem C64_closing_succeeds : forall k a, reachable k a ->
  (forall i p, nth_error (perps a) i = Some p -> real_index (p_market p) ->
     exists a1, deactivate_perp a (p_market p) (settle_of k (p_market p)) = Some a1) /\
  (forall i p, nth_error (sers a) i = Some p -> real_index (s_market p) ->
     exists a1, serum_close k a (s_market p) (s_val p) = Some a1) /\
  (forall i c db ds, nth_error (swaps a) i = Some c -> c_on c = true ->
     exists a1, swap_close a i (c_id c) db ds = Some a1).
Proof.
  intros k a H. pose proof (reachable_inv k a H) as HI. split; [|split].
  - intros i p Hp R. apply (deactivate_perp_ok k a i p); auto.
  - intros i p Hp R. apply (serum_close_ok k a i p); auto.
  - intros i c db ds Hc Hon. apply (swap_close_ok k a i c db ds); auto.
Qed.
Print Assumptions C64_closing_succeeds.

(** ** A concrete account: 4 token slots; a perp market settling in token 0, a
    serum market 1/0 and a swap 2 -> 0; token 1 was opened and closed before. *)
Definition ex_k : markets := mkMarkets (fun _ => 0) (fun _ => 1) (fun _ => 0).
Definition ex_ops : list aop :=
  [OEnsure 7; OPerpEnsure 3; OClose 0; OSetTok 1 500; OSerumCreate 5 77; OSwapCreate 2 0 9;
   OEnsure 8; OEnsure 9; OClose 1].
Definition ex_acct : acct := arun ex_k (new_acct 4 2 2 2) ex_ops.

Example C32_example :
  reachable ex_k ex_acct /\
  toks ex_acct = [mkT 1 1 0; mkT 0 3 500; mkT 2 1 0; mkT 8 0 0] /\
  open_serums ex_acct = [5] /\ open_perps ex_acct = [3] /\ swap_ids ex_acct = [0] /\
  ensure_token ex_acct 9 = None /\
  ensure_token ex_acct 2 = Some (ex_acct, 2%nat, 2%nat) /\
  needed ex_k ex_acct 0 = 3.
Proof.
  split.
  { exists 4%nat, 2%nat, 2%nat, 2%nat, ex_ops. split; [|reflexivity].
    unfold ex_ops. repeat (constructor; [cbn; unfold real_index; lia|]). constructor. }
  split; [vm_compute; reflexivity|]. split; [vm_compute; reflexivity|]. split; [vm_compute; reflexivity|].
  split; [vm_compute; reflexivity|]. split; [vm_compute; reflexivity|]. split; [vm_compute; reflexivity|].
  vm_compute; reflexivity.
Qed.

Example C64_example :
  deactivate_token ex_acct 1 = None /\
  toks (arun ex_k ex_acct [OSwapClose 0 0 true true; OSerumClose 5 77; OPerpDeactivate 3; OClose 1; OResize 5 1 1 0])
  = [mkT 1 0 0; mkT 8 0 0; t_default; t_default; t_default].
Proof. split; [vm_compute; reflexivity|]. vm_compute; reflexivity. Qed.
