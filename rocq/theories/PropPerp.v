(** C13-C16, C18, C48, C49, C51: histories of a perp market.
    [reached cap capq y]: the state [y] results from a freshly created market by any
    sequence of the instructions in PerpSystem.v, for any number of accounts, any book
    and queue capacity.  [q_iter (y_q y) = Some Q]: [Q] are the pending events. *)
From Coq Require Import List ZArith Lia Bool Arith Permutation.
From Verif Require Import OrderTree OrderTreeSpec OrderTreeRep BookArena BookArenaFacts Keys Fixed BookSide BookSideSpec
  EventQueue PerpTypes Book BookPlace BookSpec BookFacts BookResults BookResults2 BookCancel BookKeep
  PerpSystem PerpSpec PerpLots PerpInv PerpSlots PerpCancel PerpFeeSpec PerpFees.
Import ListNotations.
Open Scope Z_scope.

Lemma reached_inv cap capq y : reached cap capq y -> exists Q n, inv cap capq y Q n /\ q_iter (y_q y) = Some Q /\ (0 < capq)%nat.
Proof.
  intros Hr. destruct (inv_reached _ _ _ Hr) as (Q & n & HI). exists Q, n. split; [exact HI|].
  split; [exact (q_iter_ok _ _ _ (iv_q _ _ _ _ _ HI))|].
  destruct Hr as (buf & idx & bls & qls & mf & tf & pe & aw & lw & L & _ & Hc & _). exact Hc.
Qed.
Lemma reached_all cap capq y : reached cap capq y -> mk_seq (y_mk y) < 2 ^ 63 ->
  exists Q n, inv cap capq y Q n /\ sinv y Q /\ uinv y /\ q_iter (y_q y) = Some Q /\ (0 < capq)%nat.
Proof.
  intros Hr Hb. destruct (all_reached _ _ _ Hr Hb) as (Q & n & HI & HS & HU). exists Q, n. split; [exact HI|].
  split; [exact HS|]. split; [exact HU|].
  split; [exact (q_iter_ok _ _ _ (iv_q _ _ _ _ _ HI))|].
  destruct Hr as (buf & idx & bls & qls & mf & tf & pe & aw & lw & L & _ & Hc & _). exact Hc.
Qed.

(** ** C13 *)
Theorem C13_order_totals : forall cap capq y, reached cap capq y ->
  exists Q, q_iter (y_q y) = Some Q /\
  forall pk sd, side_lots sd (pos_of y pk) = owned pk (resting sd (y_bk y)) + in_flight sd pk Q.
Proof.
  intros cap capq y Hr. destruct (reached_inv _ _ _ Hr) as (Q & n & HI & HQ & _). exists Q. split; [exact HQ|]. apply HI.
Qed.
Print Assumptions C13_order_totals.
(** once all events are consumed only the book counts *)
Theorem C13_order_totals_quiescent : forall cap capq y, reached cap capq y -> q_iter (y_q y) = Some [] ->
  forall pk sd, side_lots sd (pos_of y pk) = owned pk (resting sd (y_bk y)).
Proof.
  intros cap capq y Hr HE pk sd. destruct (C13_order_totals _ _ _ Hr) as (Q & HQ & HL). rewrite HQ in HE. injection HE as ->.
  rewrite HL. unfold in_flight, sumZ. cbn. lia.
Qed.
Print Assumptions C13_order_totals_quiescent.

(** and they are never negative *)
Theorem C13_lots_nonneg : forall cap capq y, reached cap capq y -> forall pk, 0 <= p_bids (pos_of y pk) /\ 0 <= p_asks (pos_of y pk).
Proof.
  intros cap capq y Hr pk. destruct (reached_inv _ _ _ Hr) as (Q & n & HI & HQ & _).
  assert (HX : forall sd, 0 <= side_lots sd (pos_of y pk)).
  { intros sd. rewrite (iv_lots _ _ _ _ _ HI pk sd). destruct (iv_book _ _ _ _ _ HI sd) as (_ & _ & H2 & _).
    pose proof (owned_pos pk (resting sd (y_bk y)) (fun e He => proj1 (H2 e He))).
    pose proof (in_flight_pos sd pk Q (iv_qty _ _ _ _ _ HI)). lia. }
  split; [exact (HX Bid)|exact (HX Ask)].
Qed.
Print Assumptions C13_lots_nonneg.

(** ** C14: bid takers have taken base (positive) and owe quote (negative) *)
Theorem C14_taker_lots : forall cap capq y, reached cap capq y ->
  exists Q, q_iter (y_q y) = Some Q /\
  forall pk, p_taker_base (pos_of y pk) = taking pk f_qty Q /\
             p_taker_quote (pos_of y pk) = - taking pk (fun f => f_price f * f_qty f) Q.
Proof.
  intros cap capq y Hr. destruct (reached_inv _ _ _ Hr) as (Q & n & HI & HQ & _). exists Q. split; [exact HQ|].
  intros pk. split; [apply HI|apply (iv_tq _ _ _ _ _ HI pk)].
Qed.
Print Assumptions C14_taker_lots.

(** ** C15 *)
Theorem C15_base_nets_to_zero : forall cap capq y, reached cap capq y ->
  total p_base y = 0 /\ mk_open_interest (y_mk y) = total (fun p => Z.abs (p_base p)) y.
Proof. intros cap capq y Hr. destruct (reached_inv _ _ _ Hr) as (Q & n & HI & _ & _). split; apply HI. Qed.
Print Assumptions C15_base_nets_to_zero.

(** ** C16 *)
(** the account, slot and order id an event refers to *)
Definition target (ev : event) : Z * Z * Z :=
  match ev with EFill f => (f_maker f, f_maker_slot f, f_maker_id f) | EOut u => (u_owner u, u_slot u, u_id u) end.
(** what a slot holding the event's order becomes *)
Definition slot_after (ev : event) (s : slot) : slot :=
  match ev with
  | EFill f => if f_maker_out f then slot0
               else mkSlot (s_market s) (s_side s) (s_comp s) (s_id s) (s_client s) (Z.max (s_qty s - f_qty f) 0)
  | EOut _ => slot0
  end.

Lemma slot_upd a a' i j s x : a_oo a' = upd (a_oo a) (Z.to_nat i) x -> 0 <= i -> slot_at a j = Some s ->
  slot_at a' j = Some (if i =? j then x else s).
Proof.
  intros E Hi Hs. destruct (Z.eqb_spec i j) as [Eij|Hne].
  - subst j. eapply slot_upd_same; eauto.
  - rewrite (slot_upd_other _ _ _ _ _ E Hi Hne). exact Hs.
Qed.
Lemma slot_same a a' j : a_oo a' = a_oo a -> slot_at a' j = slot_at a j.
Proof. unfold slot_at. intros ->. reflexivity. Qed.

Theorem C16_event_hits_only_its_order : forall cap capq y y' ev Q, reached cap capq y -> mk_seq (y_mk y) < 2 ^ 63 ->
  q_iter (y_q y) = Some (ev :: Q) -> step y OpConsume = Some y' ->
  forall pk a i s, aget (y_accs y) pk = Some a -> slot_at a i = Some s ->
  exists a', aget (y_accs y') pk = Some a' /\
    let hit := (s_market s =? mk_index (y_mk y)) && (fst (fst (target ev)) =? pk) && (snd (fst (target ev)) =? i)
               && (snd (target ev) =? s_id s) in
    slot_at a' i = Some (if hit then slot_after ev s else s).
Proof.
  intros cap capq y y' ev Q Hr Hbd HQ Hst pk a i s Ha Hs. cbn [step] in Hst.
  destruct (reached_all _ _ _ Hr Hbd) as (Q0 & n & HI & HS & HU & HQ0 & Hcap). rewrite HQ in HQ0. injection HQ0 as <-.
  assert (Hid : ev_id ev <> 0) by (eapply seqn_nonzero; [apply (si_ev _ _ HS ev); left; reflexivity|exact Hbd]).
  pose proof (iv_qty _ _ _ _ _ HI ev (or_introl eq_refl)) as Hpos.
  destruct (consume_inv _ _ Hst) as [(f & q' & Hp & Eb & Eq & Hf)|(u & q' & a0 & a1 & Hp & Ha0 & Hx & ->)];
    destruct (pop_view _ _ _ _ _ _ Hcap (iv_q _ _ _ _ _ HI) Hp) as (Q1 & E & _); injection E as -> E; subst Q1; cbn [target fst snd ev_id ev_pos] in *.
  - destruct Hf as (am & am' & mk1 & at0 & at' & Hm & Em & Ht & Et & EA).
    destruct (maker_slots _ _ _ _ _ Em) as (s0 & Hs0 & Hoo).
    destruct (taker_core _ _ _ _ _ Et) as (pt & pt' & _ & _ & _ & _ & _ & _ & _ & _ & Too).
    assert (HM : exists a', aget (aset (y_accs y) (f_maker f) am') pk = Some a' /\
      slot_at a' i = Some (if (s_market s =? mk_index (y_mk y)) && (f_maker f =? pk) && (f_maker_slot f =? i) && (f_maker_id f =? s_id s)
        then slot_after (EFill f) s else s)).
    { rewrite aget_aset. destruct (Z.eqb_spec (f_maker f) pk) as [Epk|Hne].
      - rewrite <- Epk, Hm in Ha. injection Ha as <-. exists am'. split; [reflexivity|].
        rewrite andb_true_r. destruct (Z.eqb_spec (f_maker_slot f) i) as [Ei|Hni].
        + rewrite <- Ei, Hs0 in Hs. injection Hs as <-. rewrite andb_true_r.
          unfold slot_active in Hoo. apply Z.eqb_neq in Hid. rewrite Hid in Hoo. cbn [orb] in Hoo.
          rewrite (Z.eqb_sym (f_maker_id f)).
          destruct ((s_market s0 =? mk_index (y_mk y)) && (s_id s0 =? f_maker_id f)).
          * rewrite <- Ei. rewrite (slot_upd_same _ _ _ _ _ Hoo Hs0). cbn [slot_after]. rewrite (Z.abs_eq (f_qty f)) by lia. reflexivity.
          * rewrite (slot_same _ _ _ Hoo), <- Ei. exact Hs0.
        + rewrite andb_false_r. cbn [andb]. destruct (_ && _) in Hoo.
          * pose proof (slot_at_nonneg _ _ _ Hs0). rewrite (slot_upd_other _ _ _ _ _ Hoo); auto.
          * rewrite (slot_same _ _ _ Hoo). exact Hs.
      - rewrite andb_false_r. cbn [andb]. exists a. auto. }
    destruct HM as (a' & Ha' & Hs'). rewrite EA, aget_aset. destruct (Z.eqb_spec (f_taker f) pk) as [Epk|].
    + rewrite <- Epk, Ht in Ha'. injection Ha' as <-. exists at'. split; [reflexivity|]. rewrite (slot_same _ _ _ Too). exact Hs'.
    + exists a'. auto.
  - destruct (out_slots _ _ _ _ Hx) as (s0 & Hs0 & Hoo). cbn [y_accs]. rewrite aget_aset.
    destruct (Z.eqb_spec (u_owner u) pk) as [Epk|Hne].
    + rewrite <- Epk, Ha0 in Ha. injection Ha as <-. exists a1. split; [reflexivity|].
      rewrite andb_true_r. destruct (Z.eqb_spec (u_slot u) i) as [Ei|Hni].
      * rewrite <- Ei, Hs0 in Hs. injection Hs as <-. rewrite andb_true_r.
        unfold slot_active in Hoo. apply Z.eqb_neq in Hid. rewrite Hid in Hoo. cbn [orb] in Hoo. rewrite (Z.eqb_sym (u_id u)).
        destruct ((s_market s0 =? mk_index (y_mk y)) && (s_id s0 =? u_id u)).
        -- rewrite <- Ei. rewrite (slot_upd_same _ _ _ _ _ Hoo Hs0). reflexivity.
        -- rewrite (slot_same _ _ _ Hoo), <- Ei. exact Hs0.
      * rewrite andb_false_r. cbn [andb]. destruct (_ && _) in Hoo.
        -- pose proof (slot_at_nonneg _ _ _ Hs0). rewrite (slot_upd_other _ _ _ _ _ Hoo); auto.
        -- rewrite (slot_same _ _ _ Hoo). exact Hs.
    + rewrite andb_false_r. cbn [andb]. exists a. auto.
Qed.
Print Assumptions C16_event_hits_only_its_order.

(** so the slot named by a resting order always describes this order *)
Theorem C16_orders_stay_recorded : forall cap capq y, reached cap capq y -> mk_seq (y_mk y) < 2 ^ 63 ->
  exists Q, q_iter (y_q y) = Some Q /\
  forall sd e, In e (resting sd (y_bk y)) -> recorded (mk_index (y_mk y)) (y_accs y) Q sd e.
Proof.
  intros cap capq y Hr Hbd. destruct (reached_all _ _ _ Hr Hbd) as (Q & n & HI & HS & HU & HQ & _).
  exists Q. split; [exact HQ|]. apply HS.
Qed.
Print Assumptions C16_orders_stay_recorded.

(** ** C18 *)
(** placing: what the market accrues is what the taker pays plus what the makers of
    the new fills will be charged *)
Theorem C18_placing_accrues : forall cap capq bk o mk q oracle a pk now limit r ol Q new n n',
  order_call cap capq bk o mk q oracle a pk now limit r ol Q new n n' -> 0 <= mk_qls mk -> f32_rate (mk_maker_fee mk) ->
  exists p p', a_pos a = Some p /\ a_pos (r_acc r) = Some p' /\ p_base p' = p_base p /\
  mk_fees_accrued (r_market r) - mk_fees_accrued mk = (p_quote p - p_quote p') + charges (mk_qls mk) new.
Proof.
  intros until n'. intros H Hq Hr. destruct (call_fees H) as (p & p' & P1 & P2 & _ & HF & _ & HQ & HB & _).
  exists p, p'. split; [exact P1|]. split; [exact P2|]. split; [exact HB|]. rewrite (call_charges H Hq Hr) in HF. lia.
Qed.
Print Assumptions C18_placing_accrues.

(** consuming a fill between two accounts: base changes are opposite, and so are the
    quote changes (beyond the funding due) except for the maker's charge; nothing
    more is accrued *)
Definition after_funding (y : sys) (pk : Z) : fx := p_quote (pos_of y pk) - unsettled_funding (pos_of y pk) (y_mk y).
Theorem C18_fill_is_zero_sum : forall cap capq y y' f Q, reached cap capq y -> 0 <= mk_qls (y_mk y) ->
  q_iter (y_q y) = Some (EFill f :: Q) -> step y OpConsume = Some y' -> f_maker f <> f_taker f ->
  let base pk := p_base (pos_of y' pk) - p_base (pos_of y pk) in
  let quote pk := p_quote (pos_of y' pk) - after_funding y pk in
  base (f_taker f) = (if f_taker_side f then f_qty f else - f_qty f) /\
  base (f_maker f) = - base (f_taker f) /\
  quote (f_taker f) = - of_int (mk_qls (y_mk y) * f_price f * base (f_taker f)) /\
  quote (f_maker f) = - quote (f_taker f) - maker_charge (mk_qls (y_mk y)) f /\
  mk_fees_accrued (y_mk y') = mk_fees_accrued (y_mk y) /\
  (forall pk, pk <> f_taker f -> pk <> f_maker f -> pos_of y' pk = pos_of y pk).
Proof.
  intros cap capq y y' f Q Hr Hq HQ Hst Hne base quote. cbn [step] in Hst.
  assert (Hpr : 1 <= f_price f) by (apply (priced_reached _ _ _ _ Hr HQ); left; reflexivity).
  destruct (reached_inv _ _ _ Hr) as (Q0 & n & HI & HQ0 & Hcap). rewrite HQ in HQ0. injection HQ0 as <-.
  pose proof (iv_qty _ _ _ _ _ HI (EFill f) (or_introl eq_refl)) as Hpos. cbn [ev_pos] in Hpos.
  destruct (consume_inv _ _ Hst) as [(f' & q' & Hp & Eb & Eq & Hf)|(u & q' & a0 & a1 & Hp & _)];
    destruct (pop_view _ _ _ _ _ _ Hcap (iv_q _ _ _ _ _ HI) Hp) as (Q1 & E & _); [|discriminate].
  injection E as E1 E2. subst f' Q1.
  destruct Hf as (am & am' & mk1 & at0 & at' & Hm & Em & Ht & Et & EA).
  destruct (maker_quote _ _ _ _ _ Em Hq ltac:(lia) ltac:(lia)) as (p & p' & P1 & P1' & PQ & _).
  destruct (maker_core _ _ _ _ _ Hpos Em) as (p0 & p0' & P0 & P0' & PB & _ & _ & _ & _ & Emk).
  rewrite P1 in P0. injection P0 as <-. rewrite P1' in P0'. injection P0' as <-.
  destruct (taker_quote _ _ _ _ _ Et) as (t & t' & T1 & T1' & TQ & _).
  destruct (taker_core _ _ _ _ _ Et) as (t0 & t0' & T0 & T0' & TB & _ & _ & _ & _ & Emk' & _).
  rewrite T1 in T0. injection T0 as <-. rewrite T1' in T0'. injection T0' as <-.
  assert (Hp1 : pos_of y (f_maker f) = p) by (rewrite (pos_of_get _ _ _ Hm); apply posn_some, P1).
  assert (Ht0 : aget (y_accs y) (f_taker f) = Some at0).
  { rewrite aget_aset in Ht. destruct (Z.eqb_spec (f_maker f) (f_taker f)); [contradiction|exact Ht]. }
  assert (Hp2 : pos_of y (f_taker f) = t) by (rewrite (pos_of_get _ _ _ Ht0); apply posn_some, T1).
  assert (Hall : forall pk, pos_of y' pk = if f_taker f =? pk then t' else if f_maker f =? pk then p' else pos_of y pk).
  { intros pk. unfold pos_of. rewrite EA, !pos_in_aset. rewrite (posn_some _ _ T1'), (posn_some _ _ P1'). reflexivity. }
  assert (Hfund : unsettled_funding t mk1 = unsettled_funding t (y_mk y)) by (rewrite Emk; reflexivity).
  assert (Hqls : mk_qls mk1 = mk_qls (y_mk y)) by (rewrite Emk; reflexivity). rewrite Hfund, Hqls in TQ.
  unfold base, quote, after_funding. rewrite !Hall, !Z.eqb_refl. rewrite Hp1, Hp2.
  destruct (Z.eqb_spec (f_taker f) (f_maker f)); [congruence|]. rewrite PB, PQ, TB, TQ.
  split; [unfold sg; destruct (f_taker_side f); lia|]. split; [unfold sg; destruct (f_taker_side f); lia|].
  split; [unfold sg, of_int; destruct (f_taker_side f); ring|].
  split; [unfold sg, of_int; destruct (f_taker_side f); cbn [negb]; ring|].
  split; [rewrite Emk', Emk; reflexivity|].
  intros pk N1 N2. rewrite Hall. destruct (Z.eqb_spec (f_taker f) pk); [congruence|]. destruct (Z.eqb_spec (f_maker f) pk); [congruence|reflexivity].
Qed.
Print Assumptions C18_fill_is_zero_sum.

(** over any history in which fees, funding and settlements do not interfere, quote
    positions, accrued fees and the charges in pending fills add up to zero *)
Theorem C18_quote_is_conserved : forall cap capq buf idx bls qls maker taker penalty aw lw L y,
  length buf = capq -> (0 < capq)%nat -> idx <> FREE -> 0 <= qls -> f32_rate maker -> Forall op_wf L -> Forall quiet L ->
  run_ops (fresh cap buf idx bls qls maker taker penalty aw lw) L = Some y ->
  exists Q, q_iter (y_q y) = Some Q /\ total p_quote y + mk_fees_accrued (y_mk y) = charges (mk_qls (y_mk y)) Q.
Proof.
  intros cap capq buf idx bls qls maker taker penalty aw lw L y Hb Hc Hi Hq Hf HW HQ Hr.
  destruct (finv_run cap capq Hc _ _ _ _ _ (inv_fresh cap capq buf idx bls qls maker taker penalty aw lw Hb Hc Hi)
    (finv_fresh cap buf idx bls qls maker taker penalty aw lw Hq Hf) HW HQ Hr) as (Q & n & HI & HF).
  exists Q. split; [exact (q_iter_ok _ _ _ (iv_q _ _ _ _ _ HI))|]. exact (fi_total _ _ HF).
Qed.
Print Assumptions C18_quote_is_conserved.

(** ** C51 *)
Theorem C51_owner_can_cancel : forall cap capq y sd e, reached cap capq y -> mk_seq (y_mk y) < 2 ^ 63 ->
  In e (resting sd (y_bk y)) ->
  exists y', step y (OpCancelId (l_owner (snd e)) (l_key (snd e))) = Some y' /\
    Permutation (resting sd (y_bk y)) (e :: resting sd (y_bk y')) /\
    resting (negb sd) (y_bk y') = resting (negb sd) (y_bk y) /\
    (forall s, side_lots s (pos_of y' (l_owner (snd e))) =
       side_lots s (pos_of y (l_owner (snd e))) - if Bool.eqb s sd then l_quantity (snd e) else 0).
Proof. exact cancel_resting. Qed.
Print Assumptions C51_owner_can_cancel.

(** ** C48 *)
(** the maker of a pending fill and the owner of a pending out event always have an
    account with an active position: only a missing slot or taker position can block *)
Definition has_position (y : sys) (pk : Z) : Prop := exists a p, aget (y_accs y) pk = Some a /\ a_pos a = Some p.
Definition has_slot (y : sys) (pk i : Z) : Prop := exists a s, aget (y_accs y) pk = Some a /\ slot_at a i = Some s.

Lemma lots_active cap capq y Q n pk sd : inv cap capq y Q n -> 0 < in_flight sd pk Q -> has_position y pk.
Proof.
  intros HI Hf. pose proof (iv_lots _ _ _ _ _ HI pk sd) as HL.
  destruct (iv_book _ _ _ _ _ HI sd) as (_ & _ & H2 & _).
  pose proof (owned_pos pk (resting sd (y_bk y)) (fun e He => proj1 (H2 e He))) as Ho.
  unfold pos_of, pos_in in HL. destruct (aget (y_accs y) pk) as [a|] eqn:E.
  - unfold posn in HL. destruct (a_pos a) as [p|] eqn:Ep; [exists a, p; auto|]. destruct sd; cbn [side_lots pos0 p_bids p_asks] in HL; lia.
  - destruct sd; cbn [side_lots pos0 p_bids p_asks] in HL; lia.
Qed.

Theorem C48_event_parties_are_active : forall cap capq y Q, reached cap capq y -> q_iter (y_q y) = Some Q ->
  forall ev, In ev Q -> has_position y (fst (fst (target ev))).
Proof.
  intros cap capq y Q Hr HQ ev Hin. destruct (reached_inv _ _ _ Hr) as (Q0 & n & HI & HQ0 & _). rewrite HQ in HQ0. injection HQ0 as <-.
  pose proof (iv_qty _ _ _ _ _ HI) as HP.
  apply in_split in Hin as (Q1 & Q2 & E).
  apply (lots_active _ _ _ _ _ _ (ev_side ev) HI). rewrite E, in_flight_app, in_flight_cons.
  pose proof (in_flight_pos (ev_side ev) (fst (fst (target ev))) Q1) as A1. pose proof (in_flight_pos (ev_side ev) (fst (fst (target ev))) Q2) as A2.
  assert (A3 : 0 < in_flight (ev_side ev) (fst (fst (target ev))) [ev]).
  { assert (Hev : ev_pos ev) by (apply HP; rewrite E; apply in_or_app; right; left; reflexivity).
    unfold in_flight, sumZ. cbn [map fold_right]. destruct ev as [f|u]; cbn [target fst snd ev_side ev_pos] in *;
      rewrite Z.eqb_refl; [rewrite negb_involutive|]; rewrite eqb_reflx; cbn [andb]; lia. }
  assert (0 <= in_flight (ev_side ev) (fst (fst (target ev))) Q1) by (apply A1; intros e He; apply HP; rewrite E; apply in_or_app; left; exact He).
  assert (0 <= in_flight (ev_side ev) (fst (fst (target ev))) Q2) by (apply A2; intros e He; apply HP; rewrite E; apply in_or_app; right; right; exact He).
  lia.
Qed.
Print Assumptions C48_event_parties_are_active.

Theorem C48_consumable : forall cap capq y ev Q, reached cap capq y -> q_iter (y_q y) = Some (ev :: Q) ->
  has_slot y (fst (fst (target ev))) (snd (fst (target ev))) ->
  match ev with EFill f => has_position y (f_taker f) | EOut _ => True end ->
  exists y', step y OpConsume = Some y' /\ q_iter (y_q y') = Some Q.
Proof.
  intros cap capq y ev Q Hr HQ (a0 & s & Ha & Hs) Ht.
  destruct (C48_event_parties_are_active _ _ _ _ Hr HQ ev (or_introl eq_refl)) as (a & p & Ha' & Hp).
  rewrite Ha in Ha'. injection Ha' as ->.
  destruct (reached_inv _ _ _ Hr) as (Q0 & n & HI & HQ0 & Hcap). rewrite HQ in HQ0. injection HQ0 as <-.
  destruct (pop_view_ok _ _ _ _ _ Hcap (iv_q _ _ _ _ _ HI)) as (q' & Ep).
  assert (HX : exists y', consume y = Some y').
  { unfold consume. rewrite Ep. destruct ev as [f|u]; cbn [target fst snd] in *.
    - rewrite Ha.
      assert (HE : exists am mk1 pm, execute_maker a (y_mk y) f = Some (am, mk1) /\ a_pos am = Some pm).
      { unfold execute_maker. destruct (base_quote_change _ _) as [b ql]. rewrite Hp. cbn [record_trade]. cbv zeta.
        match goal with |- context[slot_at (set_pos a ?X) _] => set (P := X) end.
        rewrite slot_at_set_pos, Hs. destruct (_ && _); (eexists _, _, P; split; [reflexivity|reflexivity]). }
      destruct HE as (am & mk1 & pm & HE & Hpm). rewrite HE.
      destruct Ht as (at0 & pt & Hat & Hpt). destruct (Z.eqb_spec (f_maker f) (f_taker f)) as [Emt|Hne].
      + unfold execute_taker. rewrite Hpm. destruct (base_quote_change _ _) as [b ql]. cbn [record_trade]. cbv zeta. eauto.
      + rewrite Hat. rewrite ?HE. unfold execute_taker. rewrite Hpt. destruct (base_quote_change _ _) as [b ql]. cbn [record_trade]. cbv zeta. eauto.
    - rewrite Ha. unfold execute_out. rewrite Hp. rewrite slot_at_set_pos, Hs. destruct (_ && _); eauto. }
  destruct HX as (y' & Hc). exists y'. split; [exact Hc|].
  destruct (inv_consume _ _ _ _ _ _ Hcap HI Hc) as (e & Q' & E & HI'). injection E as _ <-. exact (q_iter_ok _ _ _ (iv_q _ _ _ _ _ HI')).
Qed.
Print Assumptions C48_consumable.

(** C48 is FALSE in two ways.  An example market without fees: *)
Definition ex_fresh (maker taker penalty : fx) : sys :=
  fresh 16 (repeat (EOut (mkOut Bid 0 0 0 0 0 0)) 8) 3 1 1 maker taker penalty (fone / 2) (3 * fone / 2).
Definition ex_lim (sd : side) (p n : Z) : order := mkOrder sd n 1000 77 0 DecrementTake (PFixed p PTLimit).
Definition ex_place (pk : Z) (sd : side) (p n : Z) : op := OpPlace pk (ex_lim sd p n) (of_int 20) 1000 10.
Lemma ex_place_wf pk sd p n : 0 <= n <= 1000 -> 1 <= p <= 1000 -> op_wf (ex_place pk sd p n).
Proof.
  intros Hn Hp. unfold op_wf, ex_place, ex_lim, order_wf, clock_ok, in_i64, i64_min, i64_max, u64_max. cbn. lia.
Qed.
Ltac ex_wf := repeat (apply Forall_cons; [first [apply ex_place_wf; lia | exact I]|]); apply Forall_nil.
Lemma ex_reached maker taker penalty L y : Forall op_wf L -> run_ops (ex_fresh maker taker penalty) L = Some y -> reached 16 8 y.
Proof.
  intros HW Hr. exists (repeat (EOut (mkOut Bid 0 0 0 0 0 0)) 8), 3, 1, 1, maker, taker, penalty, (fone / 2), (3 * fone / 2), L.
  split; [reflexivity|]. split; [lia|]. split; [discriminate|]. split; [exact HW|exact Hr].
Qed.
(** account 2 sells 2 lots at 20 to account 1 and buys 2 lots at 20 from account 3:
    its taker lots net to zero, so its position can be deactivated while both fills
    are pending; consuming then fails *)
Definition ex_stuck1 : list op :=
  [OpCreate 1 4; OpCreate 2 4; OpCreate 3 4; ex_place 1 Bid 20 2; ex_place 2 Ask 20 2;
   ex_place 3 Ask 20 2; ex_place 2 Bid 20 2; OpDeactivate 2].
Theorem C48_deactivation_blocks_events_refuted : exists y f Q, reached 16 8 y /\
  q_iter (y_q y) = Some (EFill f :: Q) /\ f_taker f = 2 /\ ~ has_position y 2 /\ step y OpConsume = None.
Proof.
  destruct (run_ops (ex_fresh 0 0 0) ex_stuck1) as [y|] eqn:E; [|vm_compute in E; discriminate].
  pose proof (ex_reached 0 0 0 ex_stuck1 y ltac:(unfold ex_stuck1; ex_wf) E) as Hr. vm_compute in E. injection E as <-.
  eexists _, _, _. split; [exact Hr|]. split; [vm_compute; reflexivity|]. split; [reflexivity|]. split.
  - intros (a & p & Ha & Hp). vm_compute in Ha. injection Ha as <-. discriminate.
  - vm_compute. reflexivity.
Qed.
Print Assumptions C48_deactivation_blocks_events_refuted.
(** account 1's bid is filled; before the event is consumed account 1 cancels the
    order (freeing the slot) and gives up its order slots *)
Definition ex_stuck2 : list op :=
  [OpCreate 1 4; OpCreate 2 4; ex_place 1 Bid 20 2; ex_place 2 Ask 20 2; OpCancelClient 1 77; OpResize 1 0].
Theorem C48_resizing_blocks_events_refuted : exists y f Q, reached 16 8 y /\
  q_iter (y_q y) = Some (EFill f :: Q) /\ f_maker f = 1 /\ ~ has_slot y 1 (f_maker_slot f) /\ step y OpConsume = None.
Proof.
  destruct (run_ops (ex_fresh 0 0 0) ex_stuck2) as [y|] eqn:E; [|vm_compute in E; discriminate].
  pose proof (ex_reached 0 0 0 ex_stuck2 y ltac:(unfold ex_stuck2; ex_wf) E) as Hr. vm_compute in E. injection E as <-.
  eexists _, _, _. split; [exact Hr|]. split; [vm_compute; reflexivity|]. split; [reflexivity|]. split.
  - intros (a & p & Ha & Hp). vm_compute in Ha. injection Ha as <-. vm_compute in Hp. discriminate.
  - vm_compute. reflexivity.
Qed.
Print Assumptions C48_resizing_blocks_events_refuted.

(** ** C49: reduce-only orders *)
(** perp_place_order.rs:143-183 [reduce_only_max_base_lots]; PerpPosition::effective_base_position_lots,
    mango_account_components.rs: base plus taker lots *)
Definition effective (p : position) : Z := p_base p + p_taker_base p.
Definition reduce_only_max_base_lots (p : position) (o : order) (market_reduce_only : bool) : Z :=
  let eff := effective p in
  let allowed :=
    if (o_side o && (0 <=? eff)) || (negb (o_side o) && (eff <=? 0)) then 0
    else if market_reduce_only
         then if o_side o then Z.abs (Z.min (eff + p_bids p) 0) else Z.max (eff - p_asks p) 0
         else Z.abs eff in
  Z.min allowed (o_max_base o).
Definition with_max_base (o : order) (n : Z) : order :=
  mkOrder (o_side o) n (o_max_quote o) (o_client o) (o_tif o) (o_stb o) (o_params o).
(** perp_place_order.rs:103-124: the order that is really placed; [None]: the
    MarketInReduceOnlyMode error *)
Definition reduced_order (order_reduce_only market_reduce_only : bool) (p : position) (o : order) : option order :=
  let m := if order_reduce_only || market_reduce_only then reduce_only_max_base_lots p o market_reduce_only else o_max_base o in
  if market_reduce_only && negb (order_reduce_only || (m =? o_max_base o)) then None else Some (with_max_base o m).

Lemma fill_base_nonneg cap capq bk o mk q oracle a pk now limit r ol Q new n n' :
  order_call cap capq bk o mk q oracle a pk now limit r ol Q new n n' -> 0 <= fill_base (fills new).
Proof.
  intros H. pose proof (call_fill_prices H) as HF. revert HF. generalize (fills new). intros L.
  unfold fill_base, sumZ. induction L as [|f L IH]; intros HF; [cbn; lia|]. cbn [map fold_right].
  specialize (IH (fun g Hg => HF g (or_intror Hg))). destruct (HF f (or_introl eq_refl)) as (_ & _ & (e & _ & _ & Hm) & _).
  destruct Hm as (_ & _ & _ & _ & Hq & _). lia.
Qed.
Lemma one_posted cap seq bk sd id : book_ok cap seq bk ->
  filter (fun e : entry => l_key (snd e) =? id) (resting sd bk) = [] \/
  exists e, filter (fun e : entry => l_key (snd e) =? id) (resting sd bk) = [e] /\ In e (resting sd bk) /\ l_key (snd e) = id.
Proof.
  intros Hb. assert (HN : NoDup (resting sd bk)).
  { destruct (Hb sd) as (_ & _ & _ & HN). eapply NoDup_map_inv; exact HN. }
  assert (HF : forall e, In e (filter (fun e : entry => l_key (snd e) =? id) (resting sd bk)) -> In e (resting sd bk) /\ l_key (snd e) = id).
  { intros e He. apply filter_In in He as [H1 H2]. apply Z.eqb_eq in H2. auto. }
  apply (NoDup_filter (fun e : entry => l_key (snd e) =? id)) in HN.
  destruct (filter (fun e : entry => l_key (snd e) =? id) (resting sd bk)) as [|e [|e' L]]; [left; reflexivity| |].
  - right. exists e. split; [reflexivity|]. apply HF. left; reflexivity.
  - exfalso. inversion HN as [|? ? Hn _]; subst. apply Hn. left.
    destruct (HF e (or_introl eq_refl)) as [A1 A2]. destruct (HF e' (or_intror (or_introl eq_refl))) as [B1 B2].
    symmetry. eapply resting_inj; [exact Hb|exact A1|exact B1|congruence].
Qed.

(** the fills of a reduce-only order bring the effective position closer to zero
    without crossing it; in a reduce-only market this holds even if all open orders of
    one side, including the newly posted one, get filled.  (The lots are never
    negative: C13_lots_nonneg.) *)
Theorem C49_reduce_only : forall ro mro o0 o cap capq bk mk q oracle a pk now limit r ol Q new n n' p p',
  a_pos a = Some p -> 0 <= p_bids p -> 0 <= p_asks p -> ro || mro = true -> reduced_order ro mro p o0 = Some o ->
  order_call cap capq bk o mk q oracle a pk now limit r ol Q new n n' -> a_pos (r_acc r) = Some p' ->
  (0 <= effective p -> 0 <= effective p' <= effective p) /\
  (effective p <= 0 -> effective p <= effective p' <= 0) /\
  (mro = true -> effective p' + p_bids p' <= Z.max (effective p + p_bids p) 0 /\
                 Z.min (effective p - p_asks p) 0 <= effective p' - p_asks p').
Proof.
  intros until p'. intros Hp Hbids Hasks Hro Ho H Hp'.
  destruct (call_fees H) as (p0 & p0' & P1 & P1' & _ & _ & _ & _ & HB & HT & _ & _ & _ & HL1 & HL2).
  rewrite Hp in P1. injection P1 as <-. rewrite Hp' in P1'. injection P1' as <-.
  pose proof (fill_base_nonneg _ _ _ _ _ _ _ _ _ _ _ _ _ _ _ _ _ H) as Hn.
  assert (HP : exists k, 0 <= k /\ fill_base (fills new) + k <= o_max_base o /\ side_lots (o_side o) p' = side_lots (o_side o) p + k).
  { destruct (r_id r) as [id|] eqn:Eid.
    - destruct (one_posted cap _ (r_book r) (o_side o) id (call_book_ok H)) as [E|(e & E & He & Ek)];
        change (side_lots (o_side o) p' = side_lots (o_side o) p + sumZ (map (fun e : entry => l_quantity (snd e))
          (filter (fun e : entry => l_key (snd e) =? id) (resting (o_side o) (r_book r))))) in HL2; rewrite E in HL2.
      + exists 0. pose proof (proj1 (call_limits H)). cbn in HL2. lia.
      + exists (l_quantity (snd e)). destruct (call_book_ok H (o_side o)) as (_ & _ & H2 & _). destruct (H2 e He) as [H3 _].
        assert (HPo : posted o r e) by (split; congruence || exact He). destruct (call_totals H e HPo) as [H4 _].
        cbn [map sumZ fold_right] in HL2. lia.
    - exists 0. pose proof (proj1 (call_limits H)). lia. }
  destruct HP as (k & Hk & Htot & HL). clear HL2.
  unfold reduced_order in Ho. rewrite Hro in Ho. destruct (mro && _) in Ho; [discriminate|]. injection Ho as <-.
  cbn [with_max_base o_side o_max_base] in *.
  set (m := reduce_only_max_base_lots p o0 mro) in *. set (F := fill_base (fills new)) in *.
  assert (Hm : m <= (if (o_side o0 && (0 <=? effective p)) || (negb (o_side o0) && (effective p <=? 0)) then 0
    else if mro then if o_side o0 then Z.abs (Z.min (effective p + p_bids p) 0) else Z.max (effective p - p_asks p) 0 else Z.abs (effective p))).
  { unfold m, reduce_only_max_base_lots. cbv zeta. lia. }
  assert (He : effective p' = effective p + (if o_side o0 then F else - F)).
  { unfold effective. rewrite HB, HT. destruct (o_side o0); lia. }
  clearbody m F. clear HB HT H Hro. destruct (o_side o0) eqn:Es; cbn [negb side_lots andb orb] in *;
    destruct (Z.leb_spec 0 (effective p)), (Z.leb_spec (effective p) 0), mro; cbn [andb orb] in Hm; repeat split; intros; try discriminate; lia.
Qed.
Print Assumptions C49_reduce_only.

(** ** examples *)
Ltac ex_run maker taker penalty L :=
  let y := fresh "y" in let E := fresh "E" in
  destruct (run_ops (ex_fresh maker taker penalty) L) as [y|] eqn:E; [|vm_compute in E; discriminate];
  pose proof (ex_reached maker taker penalty L y ltac:(unfold L; ex_wf) E) as Hr; vm_compute in E; injection E as <-.

(** account 1 bids 7 at 18, account 2 asks 3 at 25 and then sells 5 at 18 *)
Definition ex_hist : list op :=
  [OpCreate 1 4; OpCreate 2 4; ex_place 1 Bid 18 7; ex_place 2 Ask 25 3; ex_place 2 Ask 18 5].
Example C13_C14_C15_example : exists y y' Q, reached 16 8 y /\ q_iter (y_q y) = Some Q /\ length Q = 1%nat /\
  (p_bids (pos_of y 1), owned 1 (resting Bid (y_bk y)), in_flight Bid 1 Q) = (7, 2, 5) /\
  (p_asks (pos_of y 2), owned 2 (resting Ask (y_bk y)), in_flight Ask 2 Q) = (3, 3, 0) /\
  (p_taker_base (pos_of y 2), p_taker_quote (pos_of y 2)) = (-5, 90) /\
  step y OpConsume = Some y' /\
  (p_base (pos_of y' 1), p_base (pos_of y' 2), mk_open_interest (y_mk y')) = (5, -5, 10) /\
  (p_bids (pos_of y' 1), p_taker_base (pos_of y' 2)) = (2, 0).
Proof.
  ex_run (- 2 ^ 36) (2 ^ 38) 1 ex_hist. eexists _, _, _. split; [exact Hr|].
  split; [vm_compute; reflexivity|]. split; [reflexivity|]. split; [vm_compute; reflexivity|]. split; [vm_compute; reflexivity|].
  split; [vm_compute; reflexivity|]. split; [vm_compute; reflexivity|]. split; vm_compute; reflexivity.
Qed.
(** with a maker rebate of 2^-12 and a taker fee of 2^-10 on 90 *)
Example C18_example : exists y y' f, run_ops (ex_fresh (- 2 ^ 36) (2 ^ 38) 1) ex_hist = Some y /\ Forall quiet ex_hist /\
  f32_rate (- 2 ^ 36) /\ q_iter (y_q y) = Some [EFill f] /\ f_maker f <> f_taker f /\ step y OpConsume = Some y' /\
  maker_charge 1 f = - 90 * 2 ^ 36 /\ mk_fees_accrued (y_mk y') = 90 * 2 ^ 38 - 90 * 2 ^ 36 /\
  p_quote (pos_of y' 1) = - of_int 90 + 90 * 2 ^ 36 /\ p_quote (pos_of y' 2) = of_int 90 - 90 * 2 ^ 38.
Proof.
  destruct (run_ops (ex_fresh (- 2 ^ 36) (2 ^ 38) 1) ex_hist) as [y|] eqn:E; [|vm_compute in E; discriminate].
  exists y. vm_compute in E. injection E as <-. eexists _, _. split; [reflexivity|]. split; [repeat constructor|].
  split; [exists (-1), 36; lia|]. split; [vm_compute; reflexivity|]. split; [discriminate|].
  split; [vm_compute; reflexivity|]. repeat (split; [vm_compute; reflexivity|]). vm_compute; reflexivity.
Qed.
(** account 1's filled order is cancelled early and its slot 0 reused before the fill is consumed *)
Definition ex_stale : list op :=
  [OpCreate 1 4; OpCreate 2 4; ex_place 1 Bid 20 2; ex_place 2 Ask 20 2; OpCancelClient 1 77; ex_place 1 Bid 11 3].
Example C16_example : exists y y' f a a' s, reached 16 8 y /\ mk_seq (y_mk y) < 2 ^ 63 /\ q_iter (y_q y) = Some [EFill f] /\
  step y OpConsume = Some y' /\ aget (y_accs y) 1 = Some a /\ aget (y_accs y') 1 = Some a' /\ f_maker f = 1 /\
  slot_at a (f_maker_slot f) = Some s /\ s_market s = 3 /\ s_qty s = 3 /\ slot_at a' (f_maker_slot f) = Some s.
Proof.
  ex_run 0 0 0 ex_stale. eexists _, _, _, _, _, _. split; [exact Hr|]. split; [vm_compute; reflexivity|].
  repeat (split; [vm_compute; reflexivity|]). vm_compute; reflexivity.
Qed.
(** after [ex_hist] account 1 cancels the rest of its partially filled order *)
Example C51_example : exists y y' e, reached 16 8 y /\ mk_seq (y_mk y) < 2 ^ 63 /\ resting Bid (y_bk y) = [e] /\ l_quantity (snd e) = 2 /\
  step y (OpCancelId (l_owner (snd e)) (l_key (snd e))) = Some y' /\ resting Bid (y_bk y') = [] /\ p_bids (pos_of y' 1) = 5.
Proof.
  ex_run 0 0 0 ex_hist. eexists _, _, _. split; [exact Hr|]. repeat (split; [vm_compute; reflexivity|]). vm_compute; reflexivity.
Qed.
(** account 1, long 5 with 3 asks open, sends a reduce-only ask for 4: in a reduce-only
    market it is cut to 2 *)
Definition ex_pos : position := mkPos 7 0 0 3 (-2) 0 0 0 0.
Example C49_example : exists r o, reduced_order true true ex_pos (ex_lim Ask 18 4) = Some o /\ o_max_base o = 2 /\
  reduced_order false true ex_pos (ex_lim Ask 18 4) = None /\
  option_map o_max_base (reduced_order true false ex_pos (ex_lim Ask 18 4)) = Some 4 /\
  new_order (empty_book 16) o (mkMarket 3 0 1 1 0 0 0 0 0 0 0 (fone / 2) (3 * fone / 2)) (mkQ 0 0 0 (repeat (EOut (mkOut Bid 0 0 0 0 0 0)) 8))
    (of_int 20) (mkAcc (Some ex_pos) (repeat slot0 4)) 1 1000 10 = Some r /\ option_map p_asks (a_pos (r_acc r)) = Some 5.
Proof.
  eexists _, _. split; [vm_compute; reflexivity|]. repeat (split; [vm_compute; reflexivity|]). vm_compute; reflexivity.
Qed.
(** both parties of the pending fill in [ex_hist] are there, so it can be consumed *)
Example C48_example : exists y f, reached 16 8 y /\ q_iter (y_q y) = Some [EFill f] /\
  has_slot y (f_maker f) (f_maker_slot f) /\ has_position y (f_taker f).
Proof.
  ex_run 0 0 0 ex_hist. eexists _, _. split; [exact Hr|]. split; [vm_compute; reflexivity|]. split.
  - eexists _, _. split; vm_compute; reflexivity.
  - eexists _, _. split; vm_compute; reflexivity.
Qed.
