(** Lemmas about cancelling orders. *)
From Coq Require Import List ZArith Lia Bool Arith Permutation Sorted.
From Verif Require Import OrderTree OrderTreeSpec KeyBits OrderTreeRep BookArena BookArenaProofs
  BookArenaFacts Keys Fixed BookSide BookSideSpec BookSideProofs BookSideView BookSideWorst EventQueue PerpTypes Book
  BookLoop BookApply BookPlace BookSpec BookFacts.
Import ListNotations.
Open Scope Z_scope.

Lemma nodup_app_r {A} (L1 L2 : list A) : NoDup (L1 ++ L2) -> NoDup L2.
Proof. induction L1 as [|y L1 IH]; intros H; [exact H|]. inversion H; auto. Qed.

Lemma book_ok_sub cap seq bk bk' :
  book_ok cap seq bk -> (forall sd, reachable sd cap (bk_get sd bk')) ->
  (forall sd, exists rem, Permutation (resting sd bk) (rem ++ resting sd bk')) -> book_ok cap seq bk'.
Proof.
  intros H Hr HP sd. destruct (H sd) as (_ & H1 & H2 & H3). destruct (HP sd) as (rem & P).
  assert (Hin : forall e, In e (resting sd bk') -> In e (resting sd bk)).
  { intros e He. eapply Permutation_in; [symmetry; exact P|]. apply in_or_app; right; exact He. }
  split; [apply Hr|]. split; [intros l Hl; apply H1, Hin, Hl|]. split; [intros e He; apply H2, Hin, He|].
  assert (HN : NoDup (map (fun e : entry => seqno sd (snd e)) (rem ++ resting sd bk'))).
  { eapply Permutation_NoDup; [|exact H3]. apply Permutation_map, P. }
  rewrite map_app in HN. eapply nodup_app_r. exact HN.
Qed.

Lemma slot_at_set_pos a p i : slot_at (set_pos a p) i = slot_at a i.
Proof. reflexivity. Qed.

Lemma remove_perp_order_inv a mkt i q a' : remove_perp_order a mkt i q = Some a' ->
  exists s p, slot_at a i = Some s /\ s_market s = mkt /\ a_pos a = Some p /\
    a_pos a' = Some (adjust_maker_lots p (s_side s) (- q)) /\ a_oo a' = upd (a_oo a) (Z.to_nat i) slot0.
Proof.
  unfold remove_perp_order. destruct (slot_at a i) as [s|]; [|discriminate].
  destruct ((s_market s =? FREE) || negb (s_market s =? mkt)) eqn:E; [discriminate|].
  destruct (a_pos a) as [p|]; [|discriminate]. intros X; injection X as <-.
  apply orb_false_iff in E as [_ E]. apply negb_false_iff, Z.eqb_eq in E.
  exists s, p. cbn. auto.
Qed.
Lemma remove_perp_order_ok a mkt i q s p : slot_at a i = Some s -> s_market s = mkt -> mkt <> FREE -> a_pos a = Some p ->
  exists a', remove_perp_order a mkt i q = Some a'.
Proof.
  intros Hs Hm Hf Hp. unfold remove_perp_order. rewrite Hs, Hm, Hp, Z.eqb_refl.
  apply Z.eqb_neq in Hf. rewrite Hf. cbn. eauto.
Qed.

Lemma bk_set_get sd bk : bk_set sd (bk_get sd bk) bk = bk.
Proof. destruct sd, bk; reflexivity. Qed.

Lemma cancel_by_slot_spec cap seq bk a mkt pk i bk' a' : book_ok cap seq bk ->
  cancel_by_slot bk a mkt pk i = Some (inl (bk', a')) ->
  cancelled bk a mkt pk i bk' a' /\ book_ok cap seq bk'.
Proof.
  intros Hb. unfold cancel_by_slot. destruct (slot_at a i) as [s|] eqn:Es; [|discriminate].
  unfold slot_active. destruct (Z.eqb_spec (s_market s) mkt) as [Em|]; [|discriminate]. cbn [negb].
  destruct (book_ok_view _ _ _ (s_side s) Hb) as (b & Hv & Eb & _).
  destruct (view_remove _ _ _ _ (s_comp s) (s_id s) Hv) as (s' & x & b' & E1 & Hv' & Hx). rewrite E1.
  destruct x as [l|].
  - destruct ((l_owner_slot l =? i) && (l_owner l =? pk)) eqn:Ew; [|discriminate].
    apply andb_true_iff in Ew as [W1 W2]. apply Z.eqb_eq in W1, W2.
    destruct (remove_perp_order a mkt i (l_quantity l)) as [a1|] eqn:Ea; [|discriminate].
    intros X; injection X as <- <-. destruct Hx as [Hk Hm].
    destruct (remove_perp_order_inv _ _ _ _ _ Ea) as (s0 & p & Es0 & _ & Hp & Hp' & Hoo).
    rewrite Es in Es0. injection Es0 as <-.
    assert (E' : resting (s_side s) (bk_set (s_side s) s' bk) = all b').
    { apply (resting_view _ cap). rewrite bk_get_set_same. exact Hv'. }
    assert (E2 : resting (negb (s_side s)) (bk_set (s_side s) s' bk) = resting (negb (s_side s)) bk).
    { unfold resting. rewrite bk_get_set_other. reflexivity. }
    assert (HP : Permutation (resting (s_side s) bk) ((s_comp s, l) :: resting (s_side s) (bk_set (s_side s) s' bk))).
    { rewrite <- Eb, E'. apply minus_all, Hm. }
    split.
    + exists s, p, (adjust_maker_lots p (s_side s) (- l_quantity l)), (l_quantity l).
      repeat (split; [assumption||reflexivity|]). left. exists l. auto.
    + apply (book_ok_sub cap seq bk); [exact Hb| |].
      * intros sd. destruct (Bool.bool_dec sd (s_side s)) as [->|Hne].
        { rewrite bk_get_set_same. apply Hv'. }
        assert (sd = negb (s_side s)) as -> by (apply neq_negb, Hne). rewrite bk_get_set_other.
        destruct (Hb (negb (s_side s))) as [Hr _]. exact Hr.
      * intros sd. destruct (Bool.bool_dec sd (s_side s)) as [->|Hne].
        { exists [(s_comp s, l)]. exact HP. }
        assert (sd = negb (s_side s)) as -> by (apply neq_negb, Hne). exists []. rewrite E2. reflexivity.
  - destruct Hx as [Ha ->].
    destruct (Z.eqb_spec (s_qty s) 0) as [|Hq]; [discriminate|].
    destruct (remove_perp_order a mkt i 0) as [a1|] eqn:Ea; [|discriminate].
    intros X; injection X as <- <-.
    destruct (remove_perp_order_inv _ _ _ _ _ Ea) as (s0 & p & Es0 & _ & Hp & Hp' & Hoo).
    rewrite Es in Es0. injection Es0 as <-. split; [|exact Hb].
    exists s, p, (adjust_maker_lots p (s_side s) (- 0)), 0.
    repeat (split; [assumption||reflexivity|]). right. repeat (split; [assumption||reflexivity|]).
    split; [|reflexivity]. intros l Hl. rewrite <- Eb in Hl. apply in_all in Hl. apply Ha, Hl.
Qed.

(** the cases in which it succeeds *)
Lemma cancel_by_slot_succeeds cap seq bk a mkt pk i s p l : book_ok cap seq bk ->
  slot_at a i = Some s -> s_market s = mkt -> mkt <> FREE -> a_pos a = Some p ->
  In (s_comp s, l) (resting (s_side s) bk) -> l_key l = s_id s ->
  if (l_owner l =? pk) && (l_owner_slot l =? i)
  then exists bk' a', cancel_by_slot bk a mkt pk i = Some (inl (bk', a'))
  else cancel_by_slot bk a mkt pk i = None.
Proof.
  intros Hb Hs Hm Hf Hp Hin Hk. destruct (book_ok_view _ _ _ (s_side s) Hb) as (b & Hv & Eb & _).
  rewrite <- Eb in Hin. apply in_all in Hin.
  destruct (view_remove_in _ _ _ _ (s_comp s) l Hv Hin) as (s' & b' & E1 & _). rewrite Hk in E1.
  unfold cancel_by_slot. rewrite Hs. unfold slot_active. rewrite Hm, Z.eqb_refl, E1. cbn [negb].
  rewrite (andb_comm (l_owner_slot l =? i)).
  destruct ((l_owner l =? pk) && (l_owner_slot l =? i)); [|reflexivity].
  destruct (remove_perp_order_ok a mkt i (l_quantity l) s p Hs Hm Hf Hp) as (a' & ->). eauto.
Qed.
Lemma cancel_by_slot_gone cap seq bk a mkt pk i s p : book_ok cap seq bk ->
  slot_at a i = Some s -> s_market s = mkt -> mkt <> FREE -> a_pos a = Some p ->
  (forall l, In (s_comp s, l) (resting (s_side s) bk) -> l_key l <> s_id s) ->
  if s_qty s =? 0 then cancel_by_slot bk a mkt pk i = Some (inr tt)
  else exists a', cancel_by_slot bk a mkt pk i = Some (inl (bk, a')).
Proof.
  intros Hb Hs Hm Hf Hp Hno. destruct (book_ok_view _ _ _ (s_side s) Hb) as (b & Hv & Eb & _).
  destruct (view_remove _ _ _ _ (s_comp s) (s_id s) Hv) as (s' & x & b' & E1 & Hv' & Hx).
  destruct x as [l|].
  { destruct Hx as [Hk (A & B & E & _)]. exfalso. apply (Hno l); [|exact Hk]. rewrite <- Eb. apply in_all. rewrite E.
    apply in_or_app; right; left; reflexivity. }
  unfold cancel_by_slot. rewrite Hs. unfold slot_active. rewrite Hm, Z.eqb_refl, E1. cbn [negb].
  destruct (s_qty s =? 0); [reflexivity|].
  destruct (remove_perp_order_ok a mkt i 0 s p Hs Hm Hf Hp) as (a' & ->). eauto.
Qed.
Lemma cancel_by_slot_inr cap seq bk a mkt pk i u : book_ok cap seq bk ->
  cancel_by_slot bk a mkt pk i = Some (inr u) ->
  exists s, slot_at a i = Some s /\ s_market s = mkt /\ s_qty s = 0 /\
    (forall l, In (s_comp s, l) (resting (s_side s) bk) -> l_key l <> s_id s).
Proof.
  intros Hb. unfold cancel_by_slot. destruct (slot_at a i) as [s|] eqn:Es; [|discriminate].
  unfold slot_active. destruct (Z.eqb_spec (s_market s) mkt) as [Em|]; [|discriminate]. cbn [negb].
  destruct (book_ok_view _ _ _ (s_side s) Hb) as (b & Hv & Eb & _).
  destruct (view_remove _ _ _ _ (s_comp s) (s_id s) Hv) as (s' & x & b' & E1 & Hv' & Hx). rewrite E1.
  destruct x as [l|].
  - destruct ((l_owner_slot l =? i) && (l_owner l =? pk)); [|discriminate].
    destruct (remove_perp_order a mkt i (l_quantity l)); discriminate.
  - destruct Hx as [Ha _]. destruct (Z.eqb_spec (s_qty s) 0) as [Eq|]; [|destruct (remove_perp_order a mkt i 0); discriminate].
    intros _. exists s. repeat (split; [assumption||reflexivity|]). intros l Hl. rewrite <- Eb in Hl. apply in_all in Hl. apply Ha, Hl.
Qed.

(** *** cancel all *)
Lemma slot_at_upd_other a a' i j : a_oo a' = upd (a_oo a) (Z.to_nat i) slot0 -> 0 <= i -> i <> j ->
  slot_at a' j = slot_at a j.
Proof.
  intros E Hi Hne. unfold slot_at. destruct (Z.ltb_spec j 0); [reflexivity|]. rewrite E. apply OrderTreeRep.upd_other. lia.
Qed.
Lemma slot_at_nonneg a i s : slot_at a i = Some s -> 0 <= i.
Proof. unfold slot_at. destruct (Z.ltb_spec i 0); [discriminate|lia]. Qed.
Lemma slot_at_lt a i s : slot_at a i = Some s -> (Z.to_nat i < length (a_oo a))%nat.
Proof. unfold slot_at. destruct (i <? 0); [discriminate|]. intros H. apply nth_error_Some. congruence. Qed.
Lemma slot_at_upd_same a a' i s : a_oo a' = upd (a_oo a) (Z.to_nat i) slot0 -> slot_at a i = Some s ->
  slot_at a' i = Some slot0.
Proof.
  intros E Hs. pose proof (slot_at_nonneg _ _ _ Hs). pose proof (slot_at_lt _ _ _ Hs) as Hlt. unfold slot_at.
  destruct (Z.ltb_spec i 0); [lia|]. rewrite E. apply OrderTreeRep.upd_same. exact Hlt.
Qed.

Definition qsum (L : list entry) : Z := sumZ (map (fun e => l_quantity (snd e)) L).

Lemma sumZ_app A B : sumZ (A ++ B) = sumZ A + sumZ B.
Proof. unfold sumZ. induction A as [|y A IHA]; cbn [app fold_right]; [lia|]. rewrite IHA. lia. Qed.
Lemma qsum_app A B : qsum (A ++ B) = qsum A + qsum B.
Proof. unfold qsum. rewrite map_app. apply sumZ_app. Qed.

(** a run of slot cancellations *)
Inductive cancels (mkt pk : Z) (only : option side) : orderbook -> account -> Z -> orderbook -> account -> Prop :=
| K_nil bk a i : cancels mkt pk only bk a i bk a
| K_skip bk a i bk' a' s : slot_at a i = Some s -> wanted mkt only s = false ->
    cancels mkt pk only bk a (i + 1) bk' a' -> cancels mkt pk only bk a i bk' a'
| K_gone bk a i bk' a' s : slot_at a i = Some s -> wanted mkt only s = true ->
    s_qty s = 0 -> (forall l, In (s_comp s, l) (resting (s_side s) bk) -> l_key l <> s_id s) ->
    cancels mkt pk only bk a (i + 1) bk' a' -> cancels mkt pk only bk a i bk' a'
| K_cancel bk a i bk1 a1 bk' a' s : slot_at a i = Some s -> wanted mkt only s = true ->
    cancelled bk a mkt pk i bk1 a1 ->
    cancels mkt pk only bk1 a1 (i + 1) bk' a' -> cancels mkt pk only bk a i bk' a'.

Lemma cancel_all_cancels cap seq mkt pk only n : forall bk a limit i bk' a', book_ok cap seq bk ->
  cancel_all bk a mkt pk limit only i n = Some (bk', a') ->
  cancels mkt pk only bk a i bk' a' /\ book_ok cap seq bk'.
Proof.
  induction n as [|n IH]; intros bk a limit i bk' a' Hb Hc; cbn [cancel_all] in Hc.
  - injection Hc as <- <-. split; [constructor|exact Hb].
  - destruct (slot_at a i) as [s|] eqn:Es; [|discriminate]. unfold slot_active in Hc.
    destruct (s_market s =? mkt) eqn:Em; cbn [negb] in Hc.
    2:{ destruct (IH _ _ _ _ _ _ Hb Hc) as [H1 H2]. split; [|exact H2]. eapply K_skip; eauto. unfold wanted. rewrite Em. reflexivity. }
    assert (Hw : wanted mkt only s = negb (match only with None => false | Some sd => negb (Bool.eqb sd (s_side s)) end)).
    { unfold wanted. rewrite Em. destruct only; [rewrite negb_involutive|]; reflexivity. }
    destruct (match only with None => false | Some sd => negb (Bool.eqb sd (s_side s)) end).
    { destruct (IH _ _ _ _ _ _ Hb Hc) as [H1 H2]. split; [|exact H2]. eapply K_skip; eauto. }
    destruct (cancel_by_slot bk a mkt pk i) as [[[bk1 a1]|u]|] eqn:Ec; [| |discriminate].
    + destruct (cancel_by_slot_spec _ _ _ _ _ _ _ _ _ Hb Ec) as [Hcd Hb1].
      destruct limit as [|[|limit]]; [discriminate| |].
      * injection Hc as <- <-. split; [eapply K_cancel; eauto; constructor|exact Hb1].
      * destruct (IH _ _ _ _ _ _ Hb1 Hc) as [H1 H2]. split; [eapply K_cancel; eauto|exact H2].
    + destruct (cancel_by_slot_inr _ _ _ _ _ _ _ _ Hb Ec) as (s0 & Es0 & _ & Hq & Hno). rewrite Es in Es0. injection Es0 as <-.
      destruct limit as [|[|limit]]; [discriminate| |].
      * injection Hc as <- <-. split; [eapply K_gone; eauto; constructor|exact Hb].
      * destruct (IH _ _ _ _ _ _ Hb Hc) as [H1 H2]. split; [eapply K_gone; eauto|exact H2].
Qed.

Lemma cancels_spec mkt pk only bk a i bk' a' : cancels mkt pk only bk a i bk' a' ->
  forall sd, exists rem, Permutation (resting sd bk) (rem ++ resting sd bk') /\
    (forall e, In e rem -> l_owner (snd e) = pk) /\
    (forall sd0, only = Some sd0 -> sd <> sd0 -> rem = []) /\
    (forall p, a_pos a = Some p -> exists p', a_pos a' = Some p' /\
       side_lots sd p' = side_lots sd p - qsum rem /\ p_base p' = p_base p /\ p_quote p' = p_quote p /\
       p_taker_base p' = p_taker_base p /\ p_taker_quote p' = p_taker_quote p) /\
    (forall j s, slot_at a' j = Some s -> slot_at a j = Some s \/
       (s = slot0 /\ exists s0, slot_at a j = Some s0 /\ wanted mkt only s0 = true)).
Proof.
  induction 1 as [bk a i|bk a i bk' a' s Hs Hw _ IH|bk a i bk' a' s Hs Hw Hq Hno _ IH|bk a i bk1 a1 bk' a' s Hs Hw Hc _ IH]; intros sd.
  - exists []. split; [reflexivity|]. split; [intros e []|]. split; [reflexivity|]. split; [|auto].
    intros p Hp. exists p. unfold qsum, sumZ. cbn [map fold_right]. rewrite Z.sub_0_r. auto 7.
  - apply IH.
  - apply IH.
  - destruct (IH sd) as (rem & H1 & H2 & H3 & H4 & H5). clear IH.
    destruct Hc as (s0 & p & p' & q & Es0 & Hm & Hp & Hp' & Hoo & Hother & Epos & Hcase).
    rewrite Hs in Es0. injection Es0 as <-.
    assert (Hslots : forall j y, slot_at a1 j = Some y -> slot_at a j = Some y \/ (y = slot0 /\ j = i)).
    { intros j y Hj. pose proof (slot_at_nonneg _ _ _ Hs) as Hi.
      destruct (Z.eq_dec i j) as [->|Hne]; [right|left].
      - rewrite (slot_at_upd_same _ _ _ _ Hoo Hs) in Hj. injection Hj as <-. auto.
      - rewrite (slot_at_upd_other _ _ _ _ Hoo Hi Hne) in Hj. exact Hj. }
    assert (Hpos : forall q2, sumZ q2 = sumZ q2) by reflexivity. clear Hpos.
    assert (Hside : exists rem0, Permutation (resting sd bk) (rem0 ++ resting sd bk1) /\
       (forall e, In e rem0 -> l_owner (snd e) = pk) /\ (forall sd0, only = Some sd0 -> sd <> sd0 -> rem0 = []) /\
       side_lots sd p' = side_lots sd p - qsum rem0).
    { destruct (Bool.bool_dec sd (s_side s)) as [->|Hne].
      - destruct Hcase as [(l & Hk & Ho & Hsl & -> & HP)|(-> & _ & _ & HE)].
        + exists [(s_comp s, l)]. split; [exact HP|]. split; [intros e [<-|[]]; exact Ho|]. split.
          { intros sd0 E Hne. unfold wanted in Hw. rewrite E in Hw. apply andb_true_iff in Hw as [_ Hw].
            apply eqb_prop in Hw. congruence. }
          subst p'. unfold qsum, sumZ, side_lots, adjust_maker_lots. cbn [map fold_right snd].
          destruct (s_side s); cbn [p_bids p_asks]; lia.
        + exists []. rewrite HE. split; [reflexivity|]. split; [intros e []|]. split; [reflexivity|].
          subst p'. unfold qsum, sumZ, side_lots, adjust_maker_lots. cbn [map fold_right].
          destruct (s_side s); cbn [p_bids p_asks]; lia.
      - assert (sd = negb (s_side s)) as -> by (apply neq_negb, Hne). exists []. rewrite Hother.
        split; [reflexivity|]. split; [intros e []|]. split; [reflexivity|]. subst p'.
        unfold qsum, sumZ, side_lots, adjust_maker_lots. cbn [map fold_right]. destruct (s_side s); cbn [negb p_bids p_asks]; lia. }
    destruct Hside as (rem0 & S1 & S2 & S3 & S4).
    exists (rem0 ++ rem). split; [rewrite S1, H1, app_assoc; reflexivity|].
    split; [intros e He; apply in_app_or in He as [He|He]; auto|].
    split; [intros sd0 E Hne; rewrite (S3 sd0 E Hne), (H3 sd0 E Hne); reflexivity|].
    split.
    + intros p0 Hp0. rewrite Hp in Hp0. injection Hp0 as <-.
      destruct (H4 p' Hp') as (p2 & Hp2 & L1 & L2 & L3 & L4 & L5). exists p2. split; [exact Hp2|].
      rewrite qsum_app. split; [lia|]. rewrite L2, L3, L4, L5. subst p'. unfold adjust_maker_lots. destruct (s_side s); auto.
    + intros j y Hj. destruct (H5 j y Hj) as [Hj1|(-> & s1 & Hj1 & Hw1)].
      * destruct (Hslots j y Hj1) as [Hj2|[-> ->]]; [left; exact Hj2|]. right. split; [reflexivity|]. exists s. auto.
      * right. split; [reflexivity|]. destruct (Hslots j s1 Hj1) as [Hj2|[-> ->]]; [exists s1; auto|]. exists s. auto.
Qed.

(** completeness *)
Definition done_slot (bk : orderbook) (s : slot) : Prop :=
  s_qty s = 0 /\ forall l, In (s_comp s, l) (resting (s_side s) bk) -> l_key l <> s_id s.

Lemma cancel_all_complete cap seq mkt pk only n : forall bk a limit i bk' a', book_ok cap seq bk -> mkt <> FREE -> 0 <= i ->
  cancel_all bk a mkt pk limit only i n = Some (bk', a') ->
  (length (filter (wanted mkt only) (firstn n (skipn (Z.to_nat i) (a_oo a)))) <= limit)%nat ->
  forall j s, i <= j < i + Z.of_nat n -> slot_at a' j = Some s -> wanted mkt only s = true -> done_slot bk' s.
Proof.
  induction n as [|n IH]; intros bk a limit i bk' a' Hb Hf Hi Hc Hlim j s Hj Hs Hw; [lia|].
  pose proof (cancel_all_cancels _ _ _ _ _ _ _ _ _ _ _ _ Hb Hc) as [_ Hb'].
  cbn [cancel_all] in Hc. destruct (slot_at a i) as [si|] eqn:Es; [|discriminate].
  assert (Hsk : exists tl, skipn (Z.to_nat i) (a_oo a) = si :: tl /\ tl = skipn (Z.to_nat (i + 1)) (a_oo a)).
  { unfold slot_at in Es. destruct (i <? 0); [discriminate|]. exists (skipn (Z.to_nat (i + 1)) (a_oo a)). split; [|reflexivity].
    replace (Z.to_nat (i + 1)) with (S (Z.to_nat i)) by lia.
    clear -Es. revert Es. generalize (Z.to_nat i). induction (a_oo a) as [|y L IHL]; intros k E; [destruct k; discriminate|].
    destruct k as [|k]; [cbn in E; injection E as <-; reflexivity|]. cbn [skipn nth_error] in *. apply IHL, E. }
  destruct Hsk as (tl & Etl & ->). rewrite Etl in Hlim. cbn [firstn filter] in Hlim.
  (* slots in front of the remaining ones do not change *)
  assert (Hkeep : forall bk0 a0 lim bk2 a2, book_ok cap seq bk0 -> cancel_all bk0 a0 mkt pk lim only (i + 1) n = Some (bk2, a2) ->
     slot_at a2 i = slot_at a0 i).
  { clear. intros bk0 a0 lim bk2 a2 Hb Hc. apply (cancel_all_cancels cap seq) in Hc as [Hc _]; [|exact Hb].
    assert (Hlt : i < i + 1) by lia. revert Hlt Hc. generalize (i + 1). intros k Hlt Hc. revert Hlt. clear Hb.
    induction Hc as [bk a k|bk a k bk' a' s Hs Hw _ IH|bk a k bk' a' s Hs Hw Hq Hno _ IH|bk a k bk1 a1 bk' a' s Hs Hw Hcd _ IH]; intros Hlt.
    - reflexivity.
    - apply IH; lia.
    - apply IH; lia.
    - rewrite IH by lia. destruct Hcd as (_ & _ & _ & _ & _ & _ & _ & _ & Hoo & _).
      apply (slot_at_upd_other _ _ _ _ Hoo); [eapply slot_at_nonneg; exact Hs|lia]. }
  assert (Hmono : forall bk0 a0 lim bk2 a2 sx, book_ok cap seq bk0 -> cancel_all bk0 a0 mkt pk lim only (i + 1) n = Some (bk2, a2) ->
     done_slot bk0 sx -> done_slot bk2 sx).
  { clear. intros bk0 a0 lim bk2 a2 sx Hb Hc [Hq Hno]. apply (cancel_all_cancels cap seq) in Hc as [Hc _]; [|exact Hb].
    destruct (cancels_spec _ _ _ _ _ _ _ _ Hc (s_side sx)) as (rem & HP & _). split; [exact Hq|].
    intros l Hl. apply Hno. eapply Permutation_in; [symmetry; exact HP|]. apply in_or_app; right; exact Hl. }
  unfold slot_active in Hc. destruct (s_market si =? mkt) eqn:Em; cbn [negb] in Hc.
  2:{ assert (Hw0 : wanted mkt only si = false) by (unfold wanted; rewrite Em; reflexivity).
      rewrite Hw0 in Hlim. destruct (Z.eq_dec j i) as [->|Hne].
      - rewrite (Hkeep _ _ _ _ _ Hb Hc), Es in Hs. injection Hs as <-. congruence.
      - eapply (IH bk a limit (i + 1)); eauto; lia. }
  assert (Hw0 : wanted mkt only si = negb (match only with None => false | Some sd => negb (Bool.eqb sd (s_side si)) end)).
  { unfold wanted. rewrite Em. destruct only; [rewrite negb_involutive|]; reflexivity. }
  destruct (match only with None => false | Some sd => negb (Bool.eqb sd (s_side si)) end).
  { cbn [negb] in Hw0. rewrite Hw0 in Hlim. destruct (Z.eq_dec j i) as [->|Hne].
    - rewrite (Hkeep _ _ _ _ _ Hb Hc), Es in Hs. injection Hs as <-. congruence.
    - eapply (IH bk a limit (i + 1)); eauto; lia. }
  cbn [negb] in Hw0. rewrite Hw0 in Hlim. cbn [length] in Hlim.
  assert (Hrest : forall a1, a_oo a1 = a_oo a \/ a_oo a1 = upd (a_oo a) (Z.to_nat i) slot0 ->
    skipn (Z.to_nat (i + 1)) (a_oo a1) = skipn (Z.to_nat (i + 1)) (a_oo a)).
  { intros a1 [->| ->]; [reflexivity|]. replace (Z.to_nat (i + 1)) with (S (Z.to_nat i)) by lia. clear.
    generalize (Z.to_nat i). induction (a_oo a) as [|y L IHL]; intros k; [destruct k; reflexivity|].
    destruct k as [|k]; [reflexivity|]. cbn [upd skipn]. apply IHL. }
  (* only limit = 1 stops early, and then nothing wanted remains *)
  assert (Hstop : forall a1 k, filter (wanted mkt only) (firstn n (skipn (Z.to_nat (i + 1)) (a_oo a1))) = [] ->
     i + 1 <= k < i + 1 + Z.of_nat n -> forall sx, slot_at a1 k = Some sx -> wanted mkt only sx = false).
  { clear -Hi. intros a1 k Hnil Hk sx Hsx. destruct (wanted mkt only sx) eqn:E; [|reflexivity]. exfalso.
    assert (Hin : In sx (filter (wanted mkt only) (firstn n (skipn (Z.to_nat (i + 1)) (a_oo a1))))).
    { apply filter_In. split; [|exact E]. unfold slot_at in Hsx. destruct (k <? 0); [discriminate|].
      replace (Z.to_nat k) with (Z.to_nat (i + 1) + Z.to_nat (k - (i + 1)))%nat in Hsx by lia.
      assert (Hsx' : nth_error (skipn (Z.to_nat (i + 1)) (a_oo a1)) (Z.to_nat (k - (i + 1))) = Some sx).
      { rewrite <- Hsx. clear. generalize (Z.to_nat (i + 1)) (Z.to_nat (k - (i + 1))). intros m1 m2.
        revert m1. induction (a_oo a1) as [|y L IHL]; intros m1; [destruct m1, m2; reflexivity|].
        destruct m1 as [|m1]; [reflexivity|]. cbn [skipn Nat.add nth_error]. apply IHL. }
      clear Hsx. rename Hsx' into Hsx.
      assert (Hlt : (Z.to_nat (k - (i + 1)) < n)%nat) by lia. revert Hsx Hlt. clear.
      generalize (Z.to_nat (k - (i + 1))) (skipn (Z.to_nat (i + 1)) (a_oo a1)). intros m L. revert m n.
      induction L as [|y L IHL]; intros m n E Hlt; [destruct m; discriminate|]. destruct n; [lia|]. cbn [firstn].
      destruct m as [|m]; [cbn in E; injection E as <-; left; reflexivity|]. right. eapply IHL; [exact E|lia]. }
    rewrite Hnil in Hin. destruct Hin. }
  destruct (cancel_by_slot bk a mkt pk i) as [[[bk1 a1]|u]|] eqn:Ec; [| |discriminate].
  - destruct (cancel_by_slot_spec _ _ _ _ _ _ _ _ _ Hb Ec) as [Hcd Hb1].
    destruct Hcd as (_ & _ & _ & _ & _ & _ & _ & _ & Hoo & _).
    destruct limit as [|[|limit]]; [discriminate| |].
    + injection Hc as <- <-. destruct (Z.eq_dec j i) as [->|Hne].
      * rewrite (slot_at_upd_same _ _ _ _ Hoo Es) in Hs. injection Hs as <-. unfold wanted in Hw.
        apply andb_true_iff in Hw as [Hw _]. apply Z.eqb_eq in Hw. cbn [slot0 s_market] in Hw. congruence.
      * rewrite (Hstop a1 j) with (sx := s) in Hw; [discriminate| |lia|exact Hs].
        rewrite Hrest by (right; exact Hoo).
        destruct (filter (wanted mkt only) (firstn n (skipn (Z.to_nat (i + 1)) (a_oo a)))); [reflexivity|cbn [length] in Hlim; lia].
    + destruct (Z.eq_dec j i) as [->|Hne].
      * rewrite (Hkeep _ _ _ _ _ Hb1 Hc), (slot_at_upd_same _ _ _ _ Hoo Es) in Hs. injection Hs as <-. unfold wanted in Hw.
        apply andb_true_iff in Hw as [Hw _]. apply Z.eqb_eq in Hw. cbn [slot0 s_market] in Hw. congruence.
      * eapply (IH bk1 a1 (S limit) (i + 1)); eauto; [lia| |lia]. rewrite Hrest by (right; exact Hoo). lia.
  - destruct (cancel_by_slot_inr _ _ _ _ _ _ _ _ Hb Ec) as (s0 & Es0 & _ & Hq & Hno). rewrite Es in Es0. injection Es0 as <-.
    destruct limit as [|[|limit]]; [discriminate| |].
    + injection Hc as <- <-. destruct (Z.eq_dec j i) as [->|Hne].
      * rewrite Es in Hs. injection Hs as <-. split; assumption.
      * rewrite (Hstop a j) with (sx := s) in Hw; [discriminate| |lia|exact Hs].
        destruct (filter (wanted mkt only) (firstn n (skipn (Z.to_nat (i + 1)) (a_oo a)))); [reflexivity|cbn [length] in Hlim; lia].
    + destruct (Z.eq_dec j i) as [->|Hne].
      * rewrite (Hkeep _ _ _ _ _ Hb Hc), Es in Hs. injection Hs as <-. eapply Hmono; [exact Hb|exact Hc|]. split; assumption.
      * eapply (IH bk a (S limit) (i + 1)); eauto; lia.
Qed.
