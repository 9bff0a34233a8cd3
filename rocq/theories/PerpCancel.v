(** Order ids are unique among the slots of an account, so every resting order can be
    cancelled by its owner. *)
From Coq Require Import List ZArith Lia Bool Arith Permutation Sorted.
From Verif Require Import OrderTree OrderTreeSpec KeyBits OrderTreeRep BookArena BookArenaProofs
  BookArenaFacts Keys Fixed BookSide BookSideSpec BookSideProofs BookSideView BookSideWorst EventQueue PerpTypes Book
  BookLoop BookApply BookPlace BookSpec BookFacts BookResults BookResults2 BookCancel BookKeep PropBook PerpSystem PerpSpec PerpLots PerpInv PerpSlots.
Import ListNotations.
Open Scope Z_scope.

Definition slots_ok (mkt seq : Z) (L : list slot) : Prop :=
  (forall i s, nth_error L i = Some s -> s_market s = mkt -> 1 <= seqn (s_side s) (s_id s) <= seq) /\
  (forall i j s t, nth_error L i = Some s -> nth_error L j = Some t -> s_market s = mkt -> s_market t = mkt ->
     s_id s = s_id t -> i = j).
Definition uinv (y : sys) : Prop := forall pk a, aget (y_accs y) pk = Some a -> slots_ok (mk_index (y_mk y)) (mk_seq (y_mk y)) (a_oo a).

Lemma upd_nth {A} (L : list A) n x i s : nth_error (upd L n x) i = Some s -> (i = n /\ s = x) \/ (i <> n /\ nth_error L i = Some s).
Proof.
  intros H. destruct (Nat.eq_dec i n) as [->|Hne].
  - left. split; [reflexivity|]. destruct (Nat.lt_ge_cases n (length L)) as [Hlt|Hge].
    + rewrite OrderTreeRep.upd_same in H by exact Hlt. congruence.
    + assert (nth_error (upd L n x) n = None) by (apply nth_error_None; rewrite EventQueue.upd_length; exact Hge). congruence.
  - right. split; [exact Hne|]. rewrite OrderTreeRep.upd_other in H by congruence. exact H.
Qed.
Lemma slots_mono mkt m m' L : m <= m' -> slots_ok mkt m L -> slots_ok mkt m' L.
Proof. intros Hm [H1 H2]. split; [|exact H2]. intros i s Hi Hs. specialize (H1 i s Hi Hs). lia. Qed.
Lemma slots_free mkt m L n x : s_market x <> mkt -> slots_ok mkt m L -> slots_ok mkt m (upd L n x).
Proof.
  intros Hx [H1 H2]. split.
  - intros i s Hi Hs. apply upd_nth in Hi as [[_ ->]|[_ Hi]]; [congruence|eauto].
  - intros i j s t Hi Hj Hs Ht E. apply upd_nth in Hi as [[_ ->]|[_ Hi]]; [congruence|]. apply upd_nth in Hj as [[_ ->]|[_ Hj]]; [congruence|eauto].
Qed.
Lemma slots_tweak mkt m L n s0 x : nth_error L n = Some s0 -> s_market x = s_market s0 -> s_side x = s_side s0 -> s_id x = s_id s0 ->
  slots_ok mkt m L -> slots_ok mkt m (upd L n x).
Proof.
  intros Hn E1 E2 E3 [H1 H2]. split.
  - intros i s Hi Hs. apply upd_nth in Hi as [[-> ->]|[_ Hi]]; [|eauto]. rewrite E2, E3. apply (H1 n s0 Hn). congruence.
  - intros i j s t Hi Hj Hs Ht E. apply upd_nth in Hi as [[-> ->]|[Hni Hi]]; apply upd_nth in Hj as [[-> ->]|[Hnj Hj]]; [reflexivity| | |eauto].
    + apply (H2 n j s0 t); congruence.
    + apply (H2 i n s s0); congruence.
Qed.
Lemma slots_new mkt m L n x : seqn (s_side x) (s_id x) = m + 1 -> 0 <= m -> m + 1 < 2 ^ 63 -> slots_ok mkt m L -> slots_ok mkt (m + 1) (upd L n x).
Proof.
  intros Hx Hm Hb [H1 H2].
  assert (Hd : forall i s, nth_error L i = Some s -> s_market s = mkt -> s_id s <> s_id x).
  { intros i s Hi Hs E. specialize (H1 i s Hi Hs). rewrite <- E in Hx.
    assert (s_side s = s_side x) by (eapply (seqn_side _ _ (s_id s) (m + 1)); [lia|rewrite Hx; lia|exact Hb]). rewrite H in H1. lia. }
  split.
  - intros i s Hi Hs. apply upd_nth in Hi as [[-> ->]|[_ Hi]]; [lia|]. specialize (H1 i s Hi Hs). lia.
  - intros i j s t Hi Hj Hs Ht E. apply upd_nth in Hi as [[-> ->]|[Hni Hi]]; apply upd_nth in Hj as [[-> ->]|[Hnj Hj]]; [reflexivity| | |eauto].
    + exfalso. apply (Hd j t Hj Ht). congruence.
    + exfalso. apply (Hd i s Hi Hs). congruence.
Qed.
Lemma slots_repeat mkt m n : mkt <> FREE -> slots_ok mkt m (repeat slot0 n).
Proof.
  intros Hf. assert (H : forall i s, nth_error (repeat slot0 n) i = Some s -> s_market s <> mkt).
  { intros i s Hi E. apply nth_error_In, repeat_spec in Hi. subst s. cbn in E. congruence. }
  split; intros; exfalso; eapply H; eauto.
Qed.
Lemma slots_resize mkt m L k L' : mkt <> FREE -> resize_slots L k = Some L' -> slots_ok mkt m L -> slots_ok mkt m L'.
Proof.
  intros Hf. unfold resize_slots. destruct (Nat.leb _ _); [|discriminate]. intros E; injection E as <-. intros [H1 H2].
  assert (Hn : forall i s, nth_error (firstn (blocked L) L ++ repeat slot0 (k - blocked L)) i = Some s -> s_market s = mkt -> nth_error L i = Some s).
  { intros i s Hi Hs. destruct (Nat.lt_ge_cases i (length (firstn (blocked L) L))) as [Hlt|Hge].
    - rewrite nth_error_app1 in Hi by exact Hlt. rewrite <- Hi. rewrite firstn_length in Hlt. clear -Hlt.
      assert (Hb : (i < blocked L)%nat) by lia. clear Hlt. revert i Hb. generalize (blocked L).
      induction L as [|x L IH]; intros m i Hb; [destruct m, i; reflexivity|]. destruct m; [lia|]. destruct i; [reflexivity|]. cbn. apply IH. lia.
    - rewrite nth_error_app2 in Hi by exact Hge. apply nth_error_In, repeat_spec in Hi. subst s. cbn in Hs. congruence. }
  split; eauto.
Qed.

Lemma uinv_aset y bk' mk' q' pk a' : uinv y -> mk_index mk' = mk_index (y_mk y) -> mk_seq (y_mk y) <= mk_seq mk' ->
  slots_ok (mk_index (y_mk y)) (mk_seq mk') (a_oo a') -> uinv (mkSys bk' mk' q' (aset (y_accs y) pk a')).
Proof.
  intros HU E1 E2 Hs pk' a Ha. cbn [y_accs y_mk] in *. rewrite E1. rewrite aget_aset in Ha. destruct (pk =? pk').
  - injection Ha as <-. exact Hs.
  - eapply slots_mono; [exact E2|]. eapply HU. exact Ha.
Qed.
Lemma uinv_cancelled bk a mkt pk i bk' a' m : mkt <> FREE -> cancelled bk a mkt pk i bk' a' -> slots_ok mkt m (a_oo a) -> slots_ok mkt m (a_oo a').
Proof.
  intros Hf (s & p & p' & k & Hs & Hm & _ & _ & -> & _) H. apply slots_free; [cbn; congruence|exact H].
Qed.
Lemma slot_nth a i s : slot_at a i = Some s -> nth_error (a_oo a) (Z.to_nat i) = Some s.
Proof. unfold slot_at. destruct (i <? 0); [discriminate|auto]. Qed.
Lemma uinv_maker a mk f a' mk' m : mk_index mk <> FREE -> execute_maker a mk f = Some (a', mk') ->
  slots_ok (mk_index mk) m (a_oo a) -> slots_ok (mk_index mk) m (a_oo a').
Proof.
  intros Hf Em Hok. destruct (maker_slots _ _ _ _ _ Em) as (s & Hs & ->). destruct (_ && _); [|exact Hok].
  destruct (f_maker_out f); [apply slots_free; [cbn; congruence|exact Hok]|].
  eapply slots_tweak; [eapply slot_nth; exact Hs|reflexivity|reflexivity|reflexivity|exact Hok].
Qed.

Lemma uinv_step cap capq y Q n x y' : inv cap capq y Q n -> uinv y -> op_wf x -> step y x = Some y' ->
  mk_seq (y_mk y') < 2 ^ 63 -> uinv y'.
Proof.
  intros HI HU Hwf Hst Hbd. pose proof (iv_idx _ _ _ _ _ HI) as Hf. unfold step in Hst.
  assert (Hoo : forall pk a a', aget (y_accs y) pk = Some a -> a_oo a' = a_oo a -> uinv (with_acc y pk a')).
  { intros pk a a' Ha E. apply uinv_aset; [exact HU|reflexivity|lia|]. rewrite E. eapply HU; exact Ha. }
  destruct x as [pk k|pk|pk k|pk i s|pk o oracle now limit|pk id|pk cid|pk only limit| |pk1 pk2 base q1 q2|pk qt os|pk|pk|lf sf mf tf pe fe aw lw|pk].
  - destruct (aget (y_accs y) pk) eqn:E; [discriminate|]. injection Hst as <-. apply uinv_aset; [exact HU|reflexivity|lia|]. apply slots_repeat, Hf.
  - destruct (aget (y_accs y) pk) as [a|] eqn:E; [|discriminate]. destruct (a_pos a) eqn:Ep; [discriminate|]. injection Hst as <-.
    intros pk' a' Ha'. cbn [y_accs y_mk] in *. rewrite aget_adel in Ha'. destruct (pk =? pk'); [discriminate|]. eapply HU; exact Ha'.
  - destruct (aget (y_accs y) pk) as [a|] eqn:E; [|discriminate]. destruct (resize_slots _ _) as [L|] eqn:ER; [|discriminate]. injection Hst as <-.
    apply uinv_aset; [exact HU|reflexivity|lia|]. cbn [a_oo]. eapply slots_resize; eauto.
  - destruct (aget (y_accs y) pk) as [a|] eqn:E; [|discriminate]. destruct (slot_at a i) as [s0|] eqn:Es0; [|discriminate].
    destruct ((s_market s0 =? mk_index (y_mk y)) || (s_market s =? mk_index (y_mk y))) eqn:Eo; [discriminate|]. injection Hst as <-.
    apply orb_false_iff in Eo as [_ Eo]. apply Z.eqb_neq in Eo.
    apply uinv_aset; [exact HU|reflexivity|lia|]. cbn [set_slot a_oo]. apply slots_free; [exact Eo|]. eapply HU; exact E.
  - destruct (aget (y_accs y) pk) as [a|] eqn:E; [|discriminate]. destruct (new_order _ _ _ _ _ _ _ _ _) as [r|] eqn:EN; [|discriminate].
    injection Hst as <-. destruct Hwf as [W1 W2]. cbn [y_mk] in Hbd.
    destruct (inv_place _ _ _ _ _ _ _ _ _ _ _ _ HI W1 W2 E EN) as (ol & new & n' & HC & HI').
    assert (Hm : mk_index (r_market r) = mk_index (y_mk y) /\ mk_seq (r_market r) = mk_seq (y_mk y) + 1).
    { destruct (call_fees HC) as (? & ? & _ & _ & _ & _ & Ex & _). rewrite Ex. auto. }
    destruct Hm as [M1 M2]. apply uinv_aset; [exact HU|exact M1|lia|].
    assert (Hok : slots_ok (mk_index (y_mk y)) (mk_seq (y_mk y)) (a_oo (ensure_position a))).
    { unfold ensure_position. destruct (a_pos a); apply (HU pk a E). }
    pose proof (call_slots HC) as Hs. destruct (r_id r) as [id|] eqn:Eid.
    + destruct Hs as (e1 & i1 & s1 & Hp & _ & _ & _ & _ & _ & _ & _ & _ & Hsq & _ & ->). rewrite M2.
      apply slots_new; [|apply (iv_seq _ _ _ _ _ HI)|lia|exact Hok]. cbn [s_side s_id].
      destruct Hp as [Hp _]. rewrite Eid in Hp. injection Hp as ->. exact Hsq.
    + rewrite Hs. eapply slots_mono; [|exact Hok]. lia.
  - destruct (aget (y_accs y) pk) as [a|] eqn:E; [|discriminate]. destruct (find_order_id _ _ _) as [i|]; [|discriminate].
    unfold cancel_slot in Hst. destruct (cancel_by_slot _ _ _ _ _) as [[[bk' a']|]|] eqn:Ec; try discriminate. injection Hst as <-.
    destruct (cancel_by_slot_spec _ _ _ _ _ _ _ _ _ (iv_book _ _ _ _ _ HI) Ec) as [Hc Hb].
    apply uinv_aset; [exact HU|reflexivity|lia|]. eapply uinv_cancelled; eauto.
  - destruct (aget (y_accs y) pk) as [a|] eqn:E; [|discriminate]. destruct (find_client_order _ _ _) as [i|]; [|discriminate].
    unfold cancel_slot in Hst. destruct (cancel_by_slot _ _ _ _ _) as [[[bk' a']|]|] eqn:Ec; try discriminate. injection Hst as <-.
    destruct (cancel_by_slot_spec _ _ _ _ _ _ _ _ _ (iv_book _ _ _ _ _ HI) Ec) as [Hc Hb].
    apply uinv_aset; [exact HU|reflexivity|lia|]. eapply uinv_cancelled; eauto.
  - destruct (aget (y_accs y) pk) as [a|] eqn:E; [|discriminate]. destruct (cancel_all _ _ _ _ _ _ _ _) as [[bk' a']|] eqn:Ec; [|discriminate].
    injection Hst as <-. apply uinv_aset; [exact HU|reflexivity|lia|].
    refine (proj1 (cancel_all_ind cap (mk_seq (y_mk y)) _ pk only
      (fun bk a => slots_ok (mk_index (y_mk y)) (mk_seq (y_mk y)) (a_oo a)) _ _ _ _ _ _ _ _ (iv_book _ _ _ _ _ HI) _ Ec)).
    + clear -Hf. intros bk a i bk1 a1 HS Hb Hcd _. eapply uinv_cancelled; eauto.
    + eapply HU; exact E.
  - destruct (consume_inv _ _ Hst) as [(f & q' & _ & _ & _ & Hfl)|(u & q' & a & a' & _ & Ha & Hx & ->)].
    + destruct Hfl as (am & am' & mk1 & at0 & at' & Hm & Em & Ht & Et & EA).
      destruct (taker_core _ _ _ _ _ Et) as (t & t' & _ & _ & _ & _ & _ & _ & _ & T6 & Too).
      assert (M : mk_index mk1 = mk_index (y_mk y) /\ mk_seq mk1 = mk_seq (y_mk y)).
      { unfold execute_maker in Em. destruct (base_quote_change _ _) as [b ql]. destruct (a_pos am); [|discriminate].
        cbn [record_trade] in Em. destruct (slot_at _ _) as [s|]; [|discriminate].
        destruct (_ && _) in Em; injection Em as _ <-; auto. }
      assert (HU1 : forall pk a, aget (aset (y_accs y) (f_maker f) am') pk = Some a -> slots_ok (mk_index (y_mk y)) (mk_seq (y_mk y)) (a_oo a)).
      { intros pk a Ha. rewrite aget_aset in Ha. destruct (f_maker f =? pk); [|eapply HU; exact Ha]. injection Ha as <-.
        eapply uinv_maker; [exact Hf|exact Em|]. eapply HU; exact Hm. }
      intros pk a Ha. rewrite EA, aget_aset in Ha. rewrite T6. cbn [with_oi mk_index mk_seq]. destruct M as [-> ->].
      destruct (f_taker f =? pk); [|eapply HU1; exact Ha]. injection Ha as <-. rewrite Too. eapply HU1; exact Ht.
    + apply uinv_aset; [exact HU|reflexivity|lia|]. destruct (out_slots _ _ _ _ Hx) as (s & Hs & ->).
      destruct (_ && _); [apply slots_free; [cbn; congruence|]|]; eapply HU; exact Ha.
  - destruct (Z.eqb_spec pk1 pk2) as [|Hne]; [discriminate|].
    destruct (aget (y_accs y) pk1) as [a|] eqn:Ea; [|discriminate]. destruct (aget (y_accs y) pk2) as [b|] eqn:Eb; [|discriminate].
    destruct (a_pos a) as [p|] eqn:Ep; [|discriminate]. destruct (a_pos b) as [p'|] eqn:Ep'; [|discriminate].
    cbn [record_trade] in Hst. injection Hst as <-. intros pk x Hx. cbn [y_accs y_mk with_oi mk_index mk_seq] in *. rewrite !aget_aset in Hx.
    destruct (pk2 =? pk); [injection Hx as <-; exact (HU _ _ Eb)|]. destruct (pk1 =? pk); [injection Hx as <-; exact (HU _ _ Ea)|]. eapply HU; exact Hx.
  - destruct (aget (y_accs y) pk) as [a|] eqn:E; [|discriminate]. destruct (a_pos a) as [p|] eqn:Ep; [|discriminate].
    injection Hst as <-. eapply Hoo; [exact E|reflexivity].
  - destruct (aget (y_accs y) pk) as [a|] eqn:E; [|discriminate]. destruct (a_pos a) as [p|] eqn:Ep; [|discriminate].
    injection Hst as <-. eapply Hoo; [exact E|reflexivity].
  - destruct (aget (y_accs y) pk) as [a|] eqn:E; [|discriminate]. destruct (a_pos a) as [p|] eqn:Ep; [|discriminate].
    cbv zeta in Hst. match type of Hst with (if ?b then _ else _) = _ => destruct b; [|discriminate] end.
    injection Hst as <-. eapply Hoo; [exact E|reflexivity].
  - injection Hst as <-. exact HU.
  - destruct (aget (y_accs y) pk) as [a|] eqn:E; [|discriminate]. injection Hst as <-. eapply Hoo; [exact E|apply ensure_oo].
Qed.

Lemma all_run cap capq : (0 < capq)%nat -> forall L y Q n y', inv cap capq y Q n -> sinv y Q -> uinv y -> Forall op_wf L -> run_ops y L = Some y' ->
  mk_seq (y_mk y') < 2 ^ 63 -> exists Q' n', inv cap capq y' Q' n' /\ sinv y' Q' /\ uinv y'.
Proof.
  intros Hcap. induction L as [|x L IH]; intros y Q n y' HI HS HU HF Hr Hbd; cbn [run_ops] in Hr.
  - injection Hr as <-. eauto.
  - inversion HF; subst. destruct (step y x) as [y1|] eqn:E; [|discriminate]. pose proof (run_seq _ _ _ Hr).
    destruct (both_step _ _ _ _ _ _ _ Hcap HI HS H1 E ltac:(lia)) as (Q1 & n1 & HI1 & HS1). eapply (IH y1 Q1 n1); [exact HI1|exact HS1| |assumption|exact Hr|exact Hbd].
    eapply uinv_step; [exact HI|exact HU|exact H1|exact E|lia].
Qed.
Lemma all_reached cap capq y : reached cap capq y -> mk_seq (y_mk y) < 2 ^ 63 -> exists Q n, inv cap capq y Q n /\ sinv y Q /\ uinv y.
Proof.
  intros (buf & idx & bls & qls & mf & tf & pe & aw & lw & L & Hb & Hc & Hi & HF & Hr) Hbd.
  eapply all_run; [exact Hc|apply inv_fresh; eassumption| | |exact HF|exact Hr|exact Hbd].
  - constructor; cbn [fresh y_bk y_mk y_accs]; [intros sd e He; rewrite empty_resting in He; destruct He|intros ev []|intros f e []|intros u e []].
  - intros pk a Ha. discriminate.
Qed.

(** the first slot with an id is the only one *)
Lemma position_of_spec {A} (f : A -> bool) L i : position_of f L = Some i -> exists x, nth_error L i = Some x /\ f x = true.
Proof.
  revert i. induction L as [|x L IH]; intros i H; [discriminate|]. cbn [position_of] in H. destruct (f x) eqn:E.
  - injection H as <-. exists x. auto.
  - destruct (position_of f L) as [j|]; [|discriminate]. injection H as <-. apply IH. reflexivity.
Qed.
Lemma position_of_some {A} (f : A -> bool) L i x : nth_error L i = Some x -> f x = true -> exists j, position_of f L = Some j.
Proof.
  revert i. induction L as [|y L IH]; intros i Hi Hx; [destruct i; discriminate|]. cbn [position_of]. destruct (f y) eqn:E; [eauto|].
  destruct i as [|i]; [cbn in Hi; congruence|]. cbn in Hi. destruct (IH i Hi Hx) as (j & ->). cbn. eauto.
Qed.

Lemma cancel_resting cap capq y sd e : reached cap capq y -> mk_seq (y_mk y) < 2 ^ 63 -> In e (resting sd (y_bk y)) ->
  exists y', step y (OpCancelId (l_owner (snd e)) (l_key (snd e))) = Some y' /\
    Permutation (resting sd (y_bk y)) (e :: resting sd (y_bk y')) /\
    resting (negb sd) (y_bk y') = resting (negb sd) (y_bk y) /\
    (forall s, side_lots s (pos_of y' (l_owner (snd e))) =
       side_lots s (pos_of y (l_owner (snd e))) - if Bool.eqb s sd then l_quantity (snd e) else 0).
Proof.
  intros Hr Hbd He. destruct (all_reached _ _ _ Hr Hbd) as (Q & n & HI & HS & HU).
  destruct (si_rec _ _ HS sd e He) as (a & s & Ha & Hs & Hm & Hsd & Hc & Hid & Hq).
  unfold step. rewrite Ha. unfold find_order_id.
  destruct (position_of_some (fun s0 => slot_active s0 (mk_index (y_mk y)) && (s_id s0 =? l_key (snd e))) (a_oo a) _ s (slot_nth _ _ _ Hs)) as (j & Ej).
  { unfold slot_active. rewrite Hm, Hid, !Z.eqb_refl. reflexivity. }
  rewrite Ej. cbn [option_map].
  destruct (position_of_spec _ _ _ Ej) as (s' & Hj & Hf). apply andb_true_iff in Hf as [F1 F2]. apply Z.eqb_eq in F1, F2.
  assert (Ei : Z.of_nat j = l_owner_slot (snd e)).
  { destruct (HU _ _ Ha) as [_ Hu]. pose proof (slot_at_nonneg _ _ _ Hs).
    assert (j = Z.to_nat (l_owner_slot (snd e))); [|lia]. apply (Hu _ _ s' s Hj (slot_nth _ _ _ Hs)); congruence. }
  assert (Hpos : exists p, a_pos a = Some p).
  { destruct (a_pos a) as [p|] eqn:Ep; [eauto|]. exfalso.
    assert (Hp0 : pos_of y (l_owner (snd e)) = pos0) by (rewrite (pos_of_get _ _ _ Ha); unfold posn; rewrite Ep; reflexivity).
    exact (no_position_no_orders _ _ _ _ _ _ HI Hp0 sd e He eq_refl). }
  destruct Hpos as (p & Hp). rewrite Ei. unfold cancel_slot.
  pose proof (cancel_by_slot_succeeds cap (mk_seq (y_mk y)) (y_bk y) a (mk_index (y_mk y)) (l_owner (snd e)) (l_owner_slot (snd e)) s p (snd e)
    (iv_book _ _ _ _ _ HI) Hs Hm (iv_idx _ _ _ _ _ HI) Hp) as HX.
  rewrite !Z.eqb_refl in HX. cbn [andb] in HX. destruct HX as (bk' & a' & HX).
  { rewrite Hc, Hsd. destruct e; exact He. }
  { symmetry; exact Hid. }
  rewrite HX. eexists. split; [reflexivity|]. cbn [y_bk].
  destruct (cancel_by_slot_spec _ _ _ _ _ _ _ _ _ (iv_book _ _ _ _ _ HI) HX) as [(s0 & p0 & p' & k & Hs0 & _ & Hp0 & Hp' & _ & Hoth & Epp & Hcase) Hb'].
  change (p' = adjust_maker_lots p0 (s_side s0) (- k)) in Epp.
  rewrite Hs in Hs0. injection Hs0 as <-. rewrite Hsd in *.
  destruct Hcase as [(l & El & _ & _ & Ek & HP)|(_ & _ & Hno & _)].
  - assert (Hl : (s_comp s, l) = e).
    { apply (resting_inj _ _ _ sd _ _ (iv_book _ _ _ _ _ HI)); [eapply Permutation_in; [symmetry; exact HP|left; reflexivity]|exact He|].
      cbn [snd]. congruence. }
    rewrite Hl in HP. split; [exact HP|]. split; [exact Hoth|]. intros s1.
    unfold pos_of. cbn [y_accs]. rewrite pos_in_aset, Z.eqb_refl. rewrite (pos_in_get _ _ _ Ha). unfold posn. rewrite Hp', Hp.
    rewrite Hp in Hp0. injection Hp0 as <-. rewrite Epp. rewrite <- Hl. cbn [snd]. rewrite <- Ek.
    destruct (Bool.eqb_spec s1 sd) as [->|Hne]; [rewrite side_lots_adjust; lia|].
    apply neq_negb in Hne. subst s1. rewrite side_lots_adjust_other. lia.
  - exfalso. rewrite Hc in Hno. apply (Hno (snd e)); [destruct e; exact He|congruence].
Qed.
