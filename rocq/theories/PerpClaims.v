(** Quote conservation with funding: lemmas behind C19 and C22. *)
From Coq Require Import List ZArith Lia Bool Arith Permutation Sorted.
From Verif Require Import OrderTree OrderTreeSpec KeyBits OrderTreeRep BookArena BookArenaProofs
  BookArenaFacts Keys Fixed BookSide BookSideSpec BookSideProofs BookSideView BookSideWorst EventQueue PerpTypes Book
  BookLoop BookApply BookPlace BookSpec BookFacts BookResults BookResults2 BookCancel BookKeep PerpSystem PerpSpec PerpLots PerpInv PerpSlots PerpFeeSpec PerpFees
  SettleLimit SettleSpec SettleFacts PropSettle PerpMoney PerpMoneySpec.
Import ListNotations.
Open Scope Z_scope.

Lemma some_inj {A} (x y : A) : Some x = Some y -> x = y.
Proof. intros H; injection H; auto. Qed.
Lemma owed_unsettled mk p : unsettled_funding p mk = owed mk p.
Proof.
  unfold unsettled_funding, owed. rewrite !fmul_int_r.
  destruct (Z.ltb_spec 0 (p_base p)); destruct (Z.ltb_spec (p_base p) 0); try lia.
  replace (p_base p) with 0 by lia. lia.
Qed.
Lemma owed_settled mk p : p_long_settled p = mk_long_funding mk -> p_short_settled p = mk_short_funding mk -> owed mk p = 0.
Proof. unfold owed. intros -> ->. destruct (_ <? _); lia. Qed.
Lemma after_settle mk p : after_funding mk (settle_funding p mk) = after_funding mk p.
Proof.
  unfold after_funding at 1. rewrite owed_settled by reflexivity. unfold settle_funding, after_funding. cbn [p_quote].
  rewrite owed_unsettled. lia.
Qed.
Lemma after_pos0 mk : after_funding mk pos0 = 0. Proof. unfold after_funding, owed. cbn. lia. Qed.
Lemma after_mk mk mk' p : mk_long_funding mk' = mk_long_funding mk -> mk_short_funding mk' = mk_short_funding mk ->
  after_funding mk' p = after_funding mk p.
Proof. unfold after_funding, owed. intros -> ->. reflexivity. Qed.
Lemma tot_ext g g' A : (forall p, g p = g' p) -> totA g A = totA g' A.
Proof. intros HE. unfold totA. f_equal. apply map_ext. intros x. apply HE. Qed.
Lemma tot_after_mk mk mk' A : mk_long_funding mk' = mk_long_funding mk -> mk_short_funding mk' = mk_short_funding mk ->
  totA (after_funding mk') A = totA (after_funding mk) A.
Proof. intros E1 E2. apply tot_ext. intros p. apply after_mk; assumption. Qed.
Lemma tot_lin g h a b A : totA (fun p => a * g p + b * h p) A = a * totA g A + b * totA h A.
Proof. unfold totA, sumZ. induction A as [|x A IH]; cbn [map fold_right]; [lia|]. rewrite IH. lia. Qed.
(** both indexes raised by the same amount: nothing changes in total *)
Lemma tot_shift mk mk' d A : mk_long_funding mk' = mk_long_funding mk + d -> mk_short_funding mk' = mk_short_funding mk + d ->
  totA (after_funding mk') A = totA (after_funding mk) A - d * totA p_base A.
Proof.
  intros E1 E2. transitivity (totA (fun p => 1 * after_funding mk p + (- d) * p_base p) A).
  - apply tot_ext. intros p. unfold after_funding, owed. rewrite E1, E2. destruct (_ <? _); lia.
  - rewrite tot_lin. lia.
Qed.
(** opposite directions: every lot pays *)
Lemma tot_spread mk mk' s A : mk_long_funding mk' = mk_long_funding mk - s -> mk_short_funding mk' = mk_short_funding mk + s ->
  totA (after_funding mk') A = totA (after_funding mk) A + s * totA (fun p => Z.abs (p_base p)) A.
Proof.
  intros E1 E2. transitivity (totA (fun p => 1 * after_funding mk p + s * Z.abs (p_base p)) A).
  - apply tot_ext. intros p. unfold after_funding, owed. rewrite E1, E2. destruct (Z.ltb_spec (p_base p) 0); lia.
  - rewrite tot_lin. lia.
Qed.

Record ginv (y : sys) (Q : list event) (E : Z) : Prop := mkG {
  g_bls : 0 <= mk_bls (y_mk y);
  g_qls : 0 <= mk_qls (y_mk y);
  g_rate : f32_rate (mk_maker_fee (y_mk y));
  g_price : priced Q;
  g_sum : totA (after_funding (y_mk y)) (y_accs y) + mk_fees_accrued (y_mk y) - charges (mk_qls (y_mk y)) Q = E }.

(** one account changed, its claim not *)
Lemma ginv_acc y Q E pk a' bk' : ginv y Q E -> after_funding (y_mk y) (posn a') = after_funding (y_mk y) (pos_of y pk) ->
  ginv (mkSys bk' (y_mk y) (y_q y) (aset (y_accs y) pk a')) Q E.
Proof.
  intros [F0 F1 F2 F3 F4] E1. constructor; cbn [y_mk y_accs]; auto.
  rewrite tot_aset by apply after_pos0. unfold pos_of in E1. rewrite E1, <- F4. lia.
Qed.
Lemma after_adjust mk p sd k : after_funding mk (adjust_maker_lots p sd k) = after_funding mk p.
Proof. unfold adjust_maker_lots. destruct sd; reflexivity. Qed.
Lemma ginv_cancelled y Q E pk bk a mkt i bk' a' : ginv (mkSys bk (y_mk y) (y_q y) (aset (y_accs y) pk a)) Q E ->
  cancelled bk a mkt pk i bk' a' -> ginv (mkSys bk' (y_mk y) (y_q y) (aset (y_accs y) pk a')) Q E.
Proof.
  intros HF (s & p & p' & k & _ & _ & Hp & Hp' & _ & _ & -> & _).
  rewrite <- (aset_aset (y_accs y) pk a a').
  assert (X : pos_in (aset (y_accs y) pk a) pk = p) by (rewrite pos_in_aset, Z.eqb_refl; apply posn_some, Hp).
  apply (ginv_acc (mkSys bk (y_mk y) (y_q y) (aset (y_accs y) pk a)) Q E pk a' bk' HF). unfold pos_of; cbn [y_accs y_mk].
  rewrite X, (posn_some _ _ Hp'). apply after_adjust.
Qed.

Lemma ginv_consume y e Q y' capq n E : (0 < capq)%nat -> qview capq (y_q y) (e :: Q) n -> ev_pos e ->
  ginv y (e :: Q) E -> consume y = Some y' -> ginv y' Q E.
Proof.
  intros Hcap HQ HP HF Hc. pose proof HF as [F0 F1 F2 F5 F6].
  destruct (consume_inv _ _ Hc) as [(f & q' & Hp & Eb & Eq & Hf)|(u & q' & a & a' & Hp & Ha & Hx & ->)];
    destruct (pop_view _ _ _ _ _ _ Hcap HQ Hp) as (Q' & X & HQ'); injection X as -> X; subst Q'.
  - destruct Hf as (am & am' & mk1 & at0 & at' & Hm & Em & Ht & Et & EA). cbn [ev_pos] in HP.
    assert (Hpr : 1 <= f_price f) by (apply F5; left; reflexivity).
    destruct (maker_quote _ _ _ _ _ Em F1 ltac:(lia) ltac:(lia)) as (p & p' & P1 & P1' & PQ & PL & PS).
    destruct (maker_core _ _ _ _ _ HP Em) as (pm & pm' & _ & _ & _ & _ & _ & _ & _ & Emk).
    destruct (taker_quote _ _ _ _ _ Et) as (t & t' & T1 & T1' & TQ & TL & TS).
    destruct (taker_core _ _ _ _ _ Et) as (pt & pt' & _ & _ & _ & _ & _ & _ & _ & Emk' & _).
    assert (M0 : mk_bls (y_mk y') = mk_bls (y_mk y)) by (rewrite Emk', Emk; reflexivity).
    assert (M1 : mk_qls mk1 = mk_qls (y_mk y) /\ mk_maker_fee mk1 = mk_maker_fee (y_mk y) /\ mk_long_funding mk1 = mk_long_funding (y_mk y) /\
      mk_short_funding mk1 = mk_short_funding (y_mk y) /\ mk_fees_accrued mk1 = mk_fees_accrued (y_mk y)) by (rewrite Emk; cbn; auto).
    assert (M2 : mk_qls (y_mk y') = mk_qls mk1 /\ mk_maker_fee (y_mk y') = mk_maker_fee mk1 /\ mk_long_funding (y_mk y') = mk_long_funding mk1 /\
      mk_short_funding (y_mk y') = mk_short_funding mk1 /\ mk_fees_accrued (y_mk y') = mk_fees_accrued mk1) by (rewrite Emk'; cbn; auto).
    clear Emk Emk'.
    destruct M1 as (M1 & M1a & M1b & M1c & M1d), M2 as (M2 & M2a & M2b & M2c & M2d).
    rewrite owed_unsettled in PQ, TQ.
    set (v := of_int (mk_qls (y_mk y) * (f_price f * f_qty f))) in *.
    assert (CP : after_funding (y_mk y) p' = after_funding (y_mk y) p - sg (negb (f_taker_side f)) v - maker_charge (mk_qls (y_mk y)) f).
    { unfold after_funding at 1. rewrite owed_settled by assumption. rewrite PQ. unfold after_funding. lia. }
    assert (CT : after_funding (y_mk y) t' = after_funding (y_mk y) t - sg (f_taker_side f) v).
    { unfold after_funding at 1. rewrite owed_settled by congruence. rewrite TQ, M1. unfold after_funding, owed. rewrite M1b, M1c. fold v. lia. }
    assert (Tt : totA (after_funding (y_mk y)) (y_accs y') = totA (after_funding (y_mk y)) (y_accs y) - maker_charge (mk_qls (y_mk y)) f).
    { rewrite EA, !tot_aset by apply after_pos0. rewrite (pos_in_get _ _ _ Ht), (pos_in_get _ _ _ Hm).
      rewrite (posn_some _ _ P1), (posn_some _ _ P1'), (posn_some _ _ T1), (posn_some _ _ T1'), CP, CT.
      destruct (f_taker_side f); cbn [negb sg]; lia. }
    constructor.
    + congruence.
    + congruence.
    + congruence.
    + intros g Hg. apply F5. right. exact Hg.
    + rewrite (tot_after_mk (y_mk y)) by congruence. rewrite Tt, M2d, M1d, M2, M1. rewrite charges_cons, charges_fill in F6. lia.
  - assert (HF' : ginv (mkSys (y_bk y) (y_mk y) q' (y_accs y)) Q E).
    { constructor; cbn [y_mk y_accs]; auto. }
    destruct (out_core _ _ _ _ Hx) as (p & P1 & P2).
    apply (ginv_acc (mkSys (y_bk y) (y_mk y) q' (y_accs y)) Q E (u_owner u) a' (y_bk y) HF'). unfold pos_of; cbn [y_accs y_mk].
    rewrite (pos_in_get _ _ _ Ha), (posn_some _ _ P1), (posn_some _ _ P2). apply after_adjust.
Qed.

(** what an elementary update adds to the sum *)
Definition settled_up (y : sys) (pk : Z) : Prop :=
  p_long_settled (pos_of y pk) = mk_long_funding (y_mk y) /\ p_short_settled (pos_of y pk) = mk_short_funding (y_mk y).
Definition op_ok (y : sys) (x : op) : Prop :=
  match x with
  | OpTrade a b _ _ _ => settled_up y a /\ settled_up y b
  | OpMarket _ _ maker _ _ _ _ _ => f32_rate maker
  | _ => True
  end.
Definition gain (y : sys) (x : op) (y' : sys) : Z :=
  match x with
  | OpTrade _ _ _ q1 q2 => q1 + q2
  | OpQuote pk q _ => q - p_quote (pos_of y pk)
  | OpMarket _ _ _ _ _ fe _ _ => fe - mk_fees_accrued (y_mk y) + totA (after_funding (y_mk y')) (y_accs y) - totA (after_funding (y_mk y)) (y_accs y)
  | _ => 0
  end.

Lemma ginv_step cap capq y Q n E x y' : (0 < capq)%nat -> inv cap capq y Q n -> ginv y Q E -> op_wf x -> op_ok y x -> step y x = Some y' ->
  exists Q n', inv cap capq y' Q n' /\ ginv y' Q (E + gain y x y').
Proof.
  intros Hcap HI HF Hwf Hok Hst. pose proof Hst as Hst0.
  assert (Hsame : forall Q' g, q_iter (y_q y') = Some Q' -> ginv y' Q' (E + g) -> exists Q' n', inv cap capq y' Q' n' /\ ginv y' Q' (E + g)).
  { intros Q' g Eq HF'. destruct (inv_step _ _ _ _ _ _ _ Hcap HI Hwf Hst) as (Q1 & n1 & HI').
    pose proof (q_iter_ok _ _ _ (iv_q _ _ _ _ _ HI')) as X. cbn [fst] in X. rewrite Eq in X. injection X as <-. eauto. }
  assert (HQ0 : q_iter (y_q y) = Some Q) by exact (q_iter_ok _ _ _ (iv_q _ _ _ _ _ HI)).
  pose proof HF as [F0 F1 F2 F5 F6]. assert (HF0 : ginv y Q (E + 0)) by (rewrite Z.add_0_r; exact HF).
  assert (Hget : forall pk a, aget (y_accs y) pk = Some a -> pos_of y pk = posn a) by (intros pk a; apply pos_of_get).
  unfold step in Hst. destruct x as [pk k|pk|pk k|pk i s|pk o oracle now limit|pk id|pk cid|pk only limit| |pk1 pk2 base q1 q2|pk qt os|pk|pk|lf sf mf tf pe fe aw lw|pk];
    cbn [op_ok gain] in *.
  - destruct (aget (y_accs y) pk) eqn:X; [discriminate|]. apply some_inj in Hst; subst y'. apply (Hsame Q 0 HQ0).
    apply ginv_acc; auto. unfold pos_of, pos_in. rewrite X. reflexivity.
  - destruct (aget (y_accs y) pk) as [a|] eqn:X; [|discriminate]. destruct (a_pos a) eqn:Ep; [discriminate|].
    apply some_inj in Hst; subst y'. apply (Hsame Q 0 HQ0).
    assert (E0 : pos_in (y_accs y) pk = pos0) by (unfold pos_in, posn; rewrite X, Ep; reflexivity).
    constructor; cbn [y_mk y_accs]; auto.
    rewrite tot_adel by (apply after_pos0 || apply (iv_keys _ _ _ _ _ HI)). rewrite E0, after_pos0. lia.
  - destruct (aget (y_accs y) pk) as [a|] eqn:X; [|discriminate]. destruct (resize_slots _ _) as [L|]; [|discriminate].
    apply some_inj in Hst; subst y'. apply (Hsame Q 0 HQ0). apply ginv_acc; auto. rewrite (Hget _ _ X). reflexivity.
  - destruct (aget (y_accs y) pk) as [a|] eqn:X; [|discriminate]. destruct (slot_at _ _); [|discriminate].
    destruct (_ || _); [discriminate|]. apply some_inj in Hst; subst y'. apply (Hsame Q 0 HQ0).
    apply ginv_acc; auto. rewrite (Hget _ _ X). reflexivity.
  - destruct (aget (y_accs y) pk) as [a|] eqn:X; [|discriminate]. destruct (new_order _ _ _ _ _ _ _ _ _) as [r|] eqn:EN; [|discriminate].
    apply some_inj in Hst; subst y'. destruct Hwf as [Hw Hcl]. destruct (inv_place _ _ _ _ _ _ _ _ _ _ _ _ HI Hw Hcl X EN) as (ol & new & n' & HC & HI').
    exists (Q ++ new), n'. split; [exact HI'|].
    destruct (call_fees HC) as (p & p' & P1 & P2 & _ & Hfees & Emk & Hpq & Hb & _ & _ & HL & HS & _).
    rewrite (call_charges HC F1 F2) in Hfees.
    assert (Epos : pos_in (y_accs y) pk = p).
    { rewrite (pos_in_get _ _ _ X). unfold ensure_position in P1. destruct (a_pos a) as [p0|] eqn:Ep; [rewrite (posn_some _ _ Ep); congruence|].
      cbn in P1. injection P1 as <-. unfold posn. rewrite Ep. reflexivity. }
    constructor; cbn [y_mk y_accs].
    + rewrite Emk. exact F0.
    + rewrite Emk. exact F1.
    + rewrite Emk. exact F2.
    + intros f Hf. rewrite fills_app in Hf. apply in_app_or in Hf as [Hf|Hf]; [apply F5, Hf|]. apply (call_fill_fee HC f Hf).
    + rewrite (tot_after_mk (y_mk y)) by (rewrite Emk; reflexivity). rewrite tot_aset by apply after_pos0. rewrite Epos, (posn_some _ _ P2), Hfees, charges_app.
      replace (mk_qls (r_market r)) with (mk_qls (y_mk y)) by (rewrite Emk; reflexivity).
      assert (CP : after_funding (y_mk y) p' = after_funding (y_mk y) p - (p_quote p - p_quote p')).
      { unfold after_funding, owed. rewrite Hb, HL, HS. lia. }
      rewrite CP, Hpq. lia.
  - destruct (aget (y_accs y) pk) as [a|] eqn:X; [|discriminate]. destruct (find_order_id _ _ _) as [i|]; [|discriminate].
    unfold cancel_slot in Hst. destruct (cancel_by_slot _ _ _ _ _) as [[[bk' a']|]|] eqn:Ec; try discriminate. apply some_inj in Hst; subst y'.
    apply (Hsame Q 0 HQ0). destruct (cancel_by_slot_spec _ _ _ _ _ _ _ _ _ (iv_book _ _ _ _ _ HI) Ec) as [Hc _].
    eapply (ginv_cancelled y Q _ pk (y_bk y)); [|exact Hc]. rewrite aset_same by exact X. destruct y; exact HF0.
  - destruct (aget (y_accs y) pk) as [a|] eqn:X; [|discriminate]. destruct (find_client_order _ _ _) as [i|]; [|discriminate].
    unfold cancel_slot in Hst. destruct (cancel_by_slot _ _ _ _ _) as [[[bk' a']|]|] eqn:Ec; try discriminate. apply some_inj in Hst; subst y'.
    apply (Hsame Q 0 HQ0). destruct (cancel_by_slot_spec _ _ _ _ _ _ _ _ _ (iv_book _ _ _ _ _ HI) Ec) as [Hc _].
    eapply (ginv_cancelled y Q _ pk (y_bk y)); [|exact Hc]. rewrite aset_same by exact X. destruct y; exact HF0.
  - destruct (aget (y_accs y) pk) as [a|] eqn:X; [|discriminate]. destruct (cancel_all _ _ _ _ _ _ _ _) as [[bk' a']|] eqn:Ec; [|discriminate].
    apply some_inj in Hst; subst y'. apply (Hsame Q 0 HQ0).
    refine (proj1 (cancel_all_ind cap (mk_seq (y_mk y)) _ pk only
      (fun bk a => ginv (mkSys bk (y_mk y) (y_q y) (aset (y_accs y) pk a)) Q (E + 0)) _ _ _ _ _ _ _ _ (iv_book _ _ _ _ _ HI) _ Ec)).
    + clear. intros bk a i bk1 a1 HS Hb Hcd _. eapply ginv_cancelled; eauto.
    + rewrite aset_same by exact X. destruct y; exact HF0.
  - destruct (inv_consume _ _ _ _ _ _ Hcap HI Hst) as (e & Q' & -> & HI'). exists Q', n. split; [exact HI'|].
    eapply ginv_consume; [exact Hcap|exact (iv_q _ _ _ _ _ HI)| |exact HF0|exact Hst].
    apply (iv_qty _ _ _ _ _ HI). left; reflexivity.
  - destruct (Z.eqb_spec pk1 pk2) as [|Hne]; [discriminate|].
    destruct (aget (y_accs y) pk1) as [a|] eqn:Ea; [|discriminate]. destruct (aget (y_accs y) pk2) as [b|] eqn:Eb; [|discriminate].
    destruct (a_pos a) as [p|] eqn:Ep; [|discriminate]. destruct (a_pos b) as [p'|] eqn:Ep'; [|discriminate].
    cbn [record_trade] in Hst. apply some_inj in Hst; subst y'. apply (Hsame Q (q1 + q2) HQ0).
    destruct Hok as [[S1 S2] [S3 S4]]. rewrite (Hget _ _ Ea), (posn_some _ _ Ep) in S1, S2. rewrite (Hget _ _ Eb), (posn_some _ _ Ep') in S3, S4.
    constructor; cbn [y_mk y_accs with_oi mk_qls mk_maker_fee mk_fees_accrued]; auto.
    rewrite (tot_after_mk (y_mk y)) by reflexivity. rewrite !tot_aset by apply after_pos0. rewrite pos_in_aset. destruct (Z.eqb_spec pk1 pk2); [contradiction|].
    rewrite (pos_in_get _ _ _ Ea), (pos_in_get _ _ _ Eb), (posn_some _ _ Ep), (posn_some _ _ Ep').
    cbn [posn set_pos a_pos]. unfold after_funding at 2 3 4 5. rewrite !owed_settled by assumption. cbn [p_quote]. lia.
  - destruct (aget (y_accs y) pk) as [a|] eqn:X; [|discriminate]. destruct (a_pos a) as [p|] eqn:Ep; [|discriminate].
    apply some_inj in Hst; subst y'. apply (Hsame Q _ HQ0). constructor; cbn [y_mk y_accs with_acc]; auto.
    rewrite tot_aset by apply after_pos0. fold (pos_of y pk). rewrite (Hget _ _ X), (posn_some _ _ Ep). cbn [posn set_pos a_pos].
    unfold after_funding at 2 3, owed, set_quote. cbn [p_quote p_base p_long_settled p_short_settled]. lia.
  - destruct (aget (y_accs y) pk) as [a|] eqn:X; [|discriminate]. destruct (a_pos a) as [p|] eqn:Ep; [|discriminate].
    apply some_inj in Hst; subst y'. apply (Hsame Q 0 HQ0). apply ginv_acc; auto. rewrite (Hget _ _ X), (posn_some _ _ Ep). cbn [posn set_pos a_pos].
    apply after_settle.
  - destruct (aget (y_accs y) pk) as [a|] eqn:X; [|discriminate]. destruct (a_pos a) as [p|] eqn:Ep; [|discriminate].
    cbv zeta in Hst. match type of Hst with (if ?b then _ else _) = _ => destruct b eqn:Eb; [|discriminate] end.
    apply some_inj in Hst; subst y'. apply (Hsame Q 0 HQ0).
    apply ginv_acc; auto. rewrite (Hget _ _ X), (posn_some _ _ Ep).
    rewrite !andb_true_iff in Eb. destruct Eb as [[[[[_ Eb] _] _] _] _]. apply Z.eqb_eq in Eb.
    cbn [posn a_pos]. rewrite after_pos0, <- after_settle. unfold after_funding. rewrite owed_settled by reflexivity. lia.
  - apply some_inj in Hst; subst y'. apply (Hsame Q _ HQ0). constructor; cbn [y_mk y_accs mk_qls mk_maker_fee mk_fees_accrued]; auto. lia.
  - destruct (aget (y_accs y) pk) as [a|] eqn:X; [|discriminate]. apply some_inj in Hst; subst y'. apply (Hsame Q 0 HQ0).
    apply ginv_acc; auto. rewrite posn_ensure. rewrite (Hget _ _ X). reflexivity.
Qed.
