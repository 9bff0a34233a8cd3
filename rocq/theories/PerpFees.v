(** Fees and quote conservation of perp trades: lemmas behind C18. *)
From Coq Require Import List ZArith Lia Bool Arith Permutation Sorted.
From Verif Require Import OrderTree OrderTreeSpec KeyBits OrderTreeRep BookArena BookArenaProofs
  BookArenaFacts Keys Fixed BookSide BookSideSpec BookSideProofs BookSideView BookSideWorst EventQueue PerpTypes Book
  BookLoop BookApply BookPlace BookSpec BookFacts BookResults BookResults2 BookCancel BookKeep PerpSystem PerpSpec PerpLots PerpInv PerpSlots PerpFeeSpec.
Import ListNotations.
Open Scope Z_scope.

(** a rate that came from an f32 survives the f32 field of the event *)
Lemma f32_exact r : f32_rate r -> f32_round r = r.
Proof.
  intros (m & e & Hm & He & ->). unfold f32_round. set (x := m * 2 ^ e).
  destruct (Z.leb_spec (Z.log2 (Z.abs x) - 23) 0) as [|Hl]; [reflexivity|]. cbv zeta.
  set (k := Z.log2 (Z.abs x) - 23) in *.
  assert (Hx : x <> 0) by (intros E; unfold k in Hl; rewrite E in Hl; cbn in Hl; lia).
  assert (Hm0 : m <> 0) by (intros ->; apply Hx; reflexivity).
  assert (Hlog : Z.log2 (Z.abs x) = Z.log2 (Z.abs m) + e).
  { unfold x. rewrite Z.abs_mul, (Z.abs_eq (2 ^ e)) by (apply Z.pow_nonneg; lia).
    rewrite Z.log2_mul_pow2 by lia. lia. }
  assert (Hm24 : Z.log2 (Z.abs m) < 24).
  { apply Z.log2_lt_pow2; lia. }
  assert (Hke : k <= e) by (unfold k; lia).
  assert (Hd : x = m * 2 ^ (e - k) * 2 ^ k).
  { unfold x. rewrite <- Z.mul_assoc, <- Z.pow_add_r by lia. do 2 f_equal. lia. }
  assert (Hpk : 0 < 2 ^ k) by (apply Z.pow_pos_nonneg; lia).
  assert (Ha : Z.abs x = Z.abs (m * 2 ^ (e - k)) * 2 ^ k) by (rewrite Hd, Z.abs_mul, (Z.abs_eq (2 ^ k)) by lia; reflexivity).
  rewrite Ha, Z.div_mul, Z.mod_mul by lia. rewrite Z.mul_0_r.
  destruct (Z.ltb_spec 0 (2 ^ k)); [|lia]. rewrite <- Ha. rewrite Z.mul_comm. apply Z.abs_sgn.
Qed.

Lemma sumZ_map_ext {A} (f g : A -> Z) L : (forall x, In x L -> f x = g x) -> sumZ (map f L) = sumZ (map g L).
Proof. intros HE. f_equal. apply map_ext_in, HE. Qed.
Lemma charges_app qls A B : charges qls (A ++ B) = charges qls A + charges qls B.
Proof. unfold charges. rewrite fills_app, map_app. apply sumZ_app. Qed.
Lemma charges_cons qls e B : charges qls (e :: B) = charges qls [e] + charges qls B.
Proof. apply (charges_app qls [e] B). Qed.
Lemma charges_fill qls f : charges qls [EFill f] = maker_charge qls f.
Proof. unfold charges, sumZ. cbn. lia. Qed.

Section Call.
Context {cap capq : nat} {bk : orderbook} {o : order} {mk : market} {q : evq} {oracle : fx}
  {a : account} {pk now : Z} {limit : nat} {r : place_result} {ol : Z} {Q new : list event} {n n' : Z}.
Hypothesis H : order_call cap capq bk o mk q oracle a pk now limit r ol Q new n n'.

Lemma call_fill_fee f : In f (fills new) -> 1 <= f_price f /\
  f_maker_fee f = if f_maker f =? pk then 0 else f32_round (mk_maker_fee mk).
Proof.
  intros Hf. split.
  - destruct (call_fill_prices H f Hf) as (_ & _ & (e & He & Hl & Hm) & _).
    destruct Hm as (_ & _ & _ & -> & _).
    destruct (oc_book _ _ _ _ _ _ _ _ _ _ _ _ _ _ _ _ _ H (negb (o_side o))) as (_ & Hfx & _ & _).
    destruct e as [[|] l].
    + destruct Hl as [_ Hr]. specialize (Hr eq_refl). unfold representable in Hr. apply andb_true_iff in Hr as [Hr _].
      apply Z.leb_le in Hr. exact Hr.
    + specialize (Hfx l He). unfold fixed_ok in Hfx. unfold eff_price. cbn [fst snd]. lia.
  - revert Hf. open_call H. subst new. rewrite fills_app, fills_out, app_nil_r. intros Hf.
    apply in_split in Hf as (F1 & F2 & Hf).
    destruct (fills_acts_split _ _ _ _ _ _ Hf) as (A1 & i & k & A2 & m & m' & Ea & _ & -> & _).
    destruct pl_x0 as (Hx1 & Hx2 & Hx3 & Hx4 & Hx5 & Hx6 & Hx7).
    change (f_maker (mkf x m i k)) with (l_owner (it_leaf i)).
    change (f_maker_fee (mkf x m i k)) with (f32_round (if own x i then 0 else mk_maker_fee (x_market x))).
    unfold own. rewrite Hx2, Z.eqb_sym, Hx6. destruct (_ =? _); reflexivity.
Qed.

Lemma call_charges : 0 <= mk_qls mk -> f32_rate (mk_maker_fee mk) ->
  call_maker_fee (mk:=mk) (pk:=pk) (new:=new) = charges (mk_qls mk) new.
Proof.
  intros Hq Hr. unfold call_maker_fee. rewrite fmul_int_l. unfold charges, fill_quote.
  pose proof call_fill_fee as HF. revert HF. generalize (fills new). intros L. induction L as [|f L IH]; intros HF; [cbn; lia|].
  specialize (IH (fun g Hg => HF g (or_intror Hg))). cbn [filter map].
  destruct (HF f (or_introl eq_refl)) as [Hp Hfee]. rewrite f32_exact in Hfee by exact Hr.
  pose proof (call_fill_prices H) as _. unfold sumZ in *. cbn [fold_right]. rewrite <- IH. unfold maker_charge. rewrite Hfee.
  destruct (f_maker f =? pk); cbn [negb map fold_right]; [lia|]. ring.
Qed.
End Call.

(** what consuming a fill does to the quote positions *)
Lemma maker_quote a mk f a' mk' : execute_maker a mk f = Some (a', mk') -> 0 <= mk_qls mk -> 0 <= f_price f -> 0 <= f_qty f ->
  exists p p', a_pos a = Some p /\ a_pos a' = Some p' /\
   p_quote p' = p_quote p - unsettled_funding p mk
      - sg (negb (f_taker_side f)) (of_int (mk_qls mk * (f_price f * f_qty f))) - maker_charge (mk_qls mk) f /\
   p_long_settled p' = mk_long_funding mk /\ p_short_settled p' = mk_short_funding mk.
Proof.
  intros E Hq Hp Hn. unfold execute_maker in E.
  destruct (base_quote_change f (negb (f_taker_side f))) as [b ql] eqn:Eb.
  assert (Eql : ql = - sg (negb (f_taker_side f)) (f_price f * f_qty f)).
  { unfold base_quote_change in Eb. destruct (negb (f_taker_side f)); injection Eb as _ <-; unfold sg; lia. }
  destruct (a_pos a) as [p|]; [|discriminate]. cbn [record_trade] in E.
  rewrite !fmul_int_l in E. exists p.
  set (P := adjust_maker_lots _ _ _) in E.
  assert (EP : a_pos a' = Some P).
  { destruct (slot_at _ _); [|discriminate]. destruct (_ && _) in E; injection E as <- _; reflexivity. }
  exists P. split; [reflexivity|]. split; [exact EP|]. subst P. unfold adjust_maker_lots.
  assert (Hab : Z.abs (mk_qls mk * of_int ql) = of_int (mk_qls mk * (f_price f * f_qty f))).
  { rewrite Eql. unfold of_int, sg. pose proof fone_pos. assert (0 <= f_price f * f_qty f) by nia.
    set (v := f_price f * f_qty f) in *. assert (0 <= mk_qls mk * v) by nia. destruct (negb _); nia. }
  rewrite Hab, fmul_int_l.
  assert (Hq' : mk_qls mk * of_int ql = - sg (negb (f_taker_side f)) (of_int (mk_qls mk * (f_price f * f_qty f)))).
  { rewrite Eql. unfold of_int, sg. destruct (negb _); ring. }
  rewrite Hq'. unfold settle_funding, maker_charge.
  destruct (negb (f_taker_side f)); cbn [p_quote p_long_settled p_short_settled record_trading_fee]; (split; [ring|split; reflexivity]).
Qed.
Lemma taker_quote a mk f a' mk' : execute_taker a mk f = Some (a', mk') ->
  exists p p', a_pos a = Some p /\ a_pos a' = Some p' /\
   p_quote p' = p_quote p - unsettled_funding p mk - sg (f_taker_side f) (of_int (mk_qls mk * (f_price f * f_qty f))) /\
   p_long_settled p' = mk_long_funding mk /\ p_short_settled p' = mk_short_funding mk.
Proof.
  intros E. unfold execute_taker in E. destruct (a_pos a) as [p|]; [|discriminate].
  destruct (base_quote_change f (f_taker_side f)) as [b ql] eqn:Eb. cbn [record_trade] in E. rewrite fmul_int_l in E.
  injection E as <- _. eexists p, _. split; [reflexivity|]. split; [reflexivity|].
  cbn [set_pos a_pos p_quote p_long_settled p_short_settled remove_taker_trade settle_funding].
  assert (Eql : ql = - sg (f_taker_side f) (f_price f * f_qty f)).
  { unfold base_quote_change in Eb. destruct (f_taker_side f); injection Eb as _ <-; unfold sg; lia. }
  rewrite Eql. unfold of_int, sg. split; [destruct (f_taker_side f); ring|split; reflexivity].
Qed.

(** ** conservation over histories *)
Record finv (y : sys) (Q : list event) : Prop := mkFinv {
  fi_qls : 0 <= mk_qls (y_mk y);
  fi_rate : f32_rate (mk_maker_fee (y_mk y));
  fi_fund : mk_long_funding (y_mk y) = 0 /\ mk_short_funding (y_mk y) = 0;
  fi_settled : forall pk, p_long_settled (pos_of y pk) = 0 /\ p_short_settled (pos_of y pk) = 0;
  fi_price : forall f, In f (fills Q) -> 1 <= f_price f;
  fi_total : totA p_quote (y_accs y) + mk_fees_accrued (y_mk y) = charges (mk_qls (y_mk y)) Q }.

Lemma no_funding p mk : mk_long_funding mk = 0 /\ mk_short_funding mk = 0 -> p_long_settled p = 0 /\ p_short_settled p = 0 ->
  unsettled_funding p mk = 0.
Proof.
  intros [E1 E2] [E3 E4]. unfold unsettled_funding. rewrite E1, E2, E3, E4.
  destruct (0 <? p_base p); [apply fmul_0_l|]. destruct (p_base p <? 0); [apply fmul_0_l|reflexivity].
Qed.

(** one account changed, its quote position not *)
Lemma finv_acc y Q pk a' bk' : finv y Q -> p_quote (posn a') = p_quote (pos_of y pk) ->
  p_long_settled (posn a') = 0 -> p_short_settled (posn a') = 0 ->
  finv (mkSys bk' (y_mk y) (y_q y) (aset (y_accs y) pk a')) Q.
Proof.
  intros [F1 F2 F3 F4 F5 F6] E1 E2 E3. constructor; cbn [y_mk y_accs]; auto.
  - intros pk'. unfold pos_of. cbn [y_accs]. rewrite pos_in_aset. destruct (pk =? pk'); [auto|apply F4].
  - rewrite tot_aset by reflexivity. unfold pos_of in E1. rewrite E1, <- F6. lia.
Qed.
Lemma posn_some a p : a_pos a = Some p -> posn a = p.
Proof. unfold posn. intros ->. reflexivity. Qed.

Lemma finv_cancelled y Q pk bk a mkt i bk' a' : finv (mkSys bk (y_mk y) (y_q y) (aset (y_accs y) pk a)) Q ->
  cancelled bk a mkt pk i bk' a' -> finv (mkSys bk' (y_mk y) (y_q y) (aset (y_accs y) pk a')) Q.
Proof.
  intros HF (s & p & p' & k & _ & _ & Hp & Hp' & _ & _ & -> & _).
  rewrite <- (aset_aset (y_accs y) pk a a').
  assert (E : pos_in (aset (y_accs y) pk a) pk = p) by (rewrite pos_in_aset, Z.eqb_refl; apply posn_some, Hp).
  pose proof (fi_settled _ _ HF pk) as [S1 S2]. unfold pos_of in S1, S2. cbn [y_accs] in S1, S2. rewrite E in S1, S2.
  apply (finv_acc (mkSys bk (y_mk y) (y_q y) (aset (y_accs y) pk a)) Q pk a' bk' HF); unfold pos_of; cbn [y_accs];
    rewrite ?E, (posn_some _ _ Hp'); unfold adjust_maker_lots; destruct (s_side s); cbn; auto.
Qed.

Lemma taking_filled f Q : In f (fills (EFill f :: Q)). Proof. left; reflexivity. Qed.

Lemma finv_consume y e Q y' capq n : (0 < capq)%nat -> qview capq (y_q y) (e :: Q) n -> (forall e, In e Q -> ev_pos e) -> ev_pos e ->
  finv y (e :: Q) -> consume y = Some y' -> finv y' Q.
Proof.
  intros Hcap HQ HPs HP HF Hc. pose proof HF as [F1 F2 F3 F4 F5 F6].
  destruct (consume_inv _ _ Hc) as [(f & q' & Hp & Eb & Eq & Hf)|(u & q' & a & a' & Hp & Ha & Hx & ->)];
    destruct (pop_view _ _ _ _ _ _ Hcap HQ Hp) as (Q' & E & HQ'); injection E as -> E; subst Q'.
  - destruct Hf as (am & am' & mk1 & at0 & at' & Hm & Em & Ht & Et & EA). cbn [ev_pos] in HP.
    assert (Hpr : 1 <= f_price f) by (apply F5; left; reflexivity).
    destruct (maker_quote _ _ _ _ _ Em F1 ltac:(lia) ltac:(lia)) as (p & p' & P1 & P1' & PQ & PL & PS).
    destruct (maker_core _ _ _ _ _ HP Em) as (pm & pm' & _ & _ & _ & _ & _ & _ & _ & Emk).
    destruct (taker_quote _ _ _ _ _ Et) as (t & t' & T1 & T1' & TQ & TL & TS).
    destruct (taker_core _ _ _ _ _ Et) as (pt & pt' & _ & _ & _ & _ & _ & _ & _ & Emk' & _).
    assert (M1 : mk_qls mk1 = mk_qls (y_mk y) /\ mk_maker_fee mk1 = mk_maker_fee (y_mk y) /\ mk_long_funding mk1 = mk_long_funding (y_mk y) /\
      mk_short_funding mk1 = mk_short_funding (y_mk y) /\ mk_fees_accrued mk1 = mk_fees_accrued (y_mk y)) by (rewrite Emk; cbn; auto).
    assert (M2 : mk_qls (y_mk y') = mk_qls mk1 /\ mk_maker_fee (y_mk y') = mk_maker_fee mk1 /\ mk_long_funding (y_mk y') = mk_long_funding mk1 /\
      mk_short_funding (y_mk y') = mk_short_funding mk1 /\ mk_fees_accrued (y_mk y') = mk_fees_accrued mk1) by (rewrite Emk'; cbn; auto).
    destruct M1 as (M1 & M1a & M1b & M1c & M1d), M2 as (M2 & M2a & M2b & M2c & M2d). destruct F3 as [F3a F3b].
    assert (Sp : p_long_settled p = 0 /\ p_short_settled p = 0).
    { pose proof (F4 (f_maker f)) as X. unfold pos_of in X. rewrite (pos_in_get _ _ _ Hm), (posn_some _ _ P1) in X. exact X. }
    assert (St : p_long_settled t = 0 /\ p_short_settled t = 0).
    { rewrite <- (posn_some _ _ T1), <- (pos_in_get _ _ _ Ht), pos_in_aset. destruct (f_maker f =? f_taker f).
      - rewrite (posn_some _ _ P1'), PL, PS. auto.
      - apply (F4 (f_taker f)). }
    rewrite (no_funding p) in PQ by (exact Sp || (split; assumption)). rewrite (no_funding t) in TQ by (exact St || (split; congruence)).
    assert (Tt : totA p_quote (y_accs y') = totA p_quote (y_accs y) - maker_charge (mk_qls (y_mk y)) f).
    { rewrite EA, !tot_aset by reflexivity. rewrite (pos_in_get _ _ _ Ht), (pos_in_get _ _ _ Hm).
      rewrite (posn_some _ _ P1), (posn_some _ _ P1'), (posn_some _ _ T1), (posn_some _ _ T1'), PQ, TQ, M1.
      destruct (f_taker_side f); cbn [negb sg]; lia. }
    constructor.
    + congruence.
    + congruence.
    + split; congruence.
    + intros pk. unfold pos_of. rewrite EA, !pos_in_aset. destruct (f_taker f =? pk).
      * rewrite (posn_some _ _ T1'). split; congruence.
      * destruct (f_maker f =? pk); [rewrite (posn_some _ _ P1'); split; congruence|apply (F4 pk)].
    + intros g Hg. apply F5. right. exact Hg.
    + rewrite Tt, M2d, M1d, M2, M1. rewrite charges_cons, charges_fill in F6. lia.
  - assert (HF' : finv (mkSys (y_bk y) (y_mk y) q' (y_accs y)) Q).
    { constructor; cbn [y_mk y_accs]; auto. }
    destruct (out_core _ _ _ _ Hx) as (p & P1 & P2).
    pose proof (F4 (u_owner u)) as [S1 S2]. unfold pos_of in S1, S2. rewrite (pos_in_get _ _ _ Ha), (posn_some _ _ P1) in S1, S2.
    apply (finv_acc (mkSys (y_bk y) (y_mk y) q' (y_accs y)) Q (u_owner u) a' (y_bk y) HF'); unfold pos_of; cbn [y_accs];
      rewrite ?(pos_in_get _ _ _ Ha), ?(posn_some _ _ P1), (posn_some _ _ P2); unfold adjust_maker_lots; destruct (u_side u); cbn; auto.
Qed.

Lemma finv_step cap capq y Q n x y' : (0 < capq)%nat -> inv cap capq y Q n -> finv y Q -> op_wf x -> quiet x -> step y x = Some y' ->
  exists Q n', inv cap capq y' Q n' /\ finv y' Q.
Proof.
  intros Hcap HI HF Hwf Hqt Hst.
  assert (Hsame : forall Q', q_iter (y_q y') = Some Q' -> finv y' Q' -> exists Q' n', inv cap capq y' Q' n' /\ finv y' Q').
  { intros Q' Eq HF'. destruct (inv_step _ _ _ _ _ _ _ Hcap HI Hwf Hst) as (Q1 & n1 & HI').
    pose proof (q_iter_ok _ _ _ (iv_q _ _ _ _ _ HI')) as E. cbn [fst] in E. rewrite Eq in E. injection E as <-. eauto. }
  assert (HQ0 : q_iter (y_q y) = Some Q) by exact (q_iter_ok _ _ _ (iv_q _ _ _ _ _ HI)).
  pose proof HF as [F1 F2 F3 F4 F5 F6].
  assert (Hget : forall pk a, aget (y_accs y) pk = Some a -> pos_of y pk = posn a) by (intros pk a; apply pos_of_get).
  unfold step in Hst. destruct x as [pk k|pk|pk k|pk i s|pk o oracle now limit|pk id|pk cid|pk only limit| |pk1 pk2 base q1 q2|pk qt os|pk|pk|lf sf mf tf pe fe aw lw|pk];
    cbn [quiet] in Hqt.
  - destruct (aget (y_accs y) pk) eqn:E; [discriminate|]. injection Hst as <-. apply (Hsame Q HQ0).
    apply finv_acc; auto. unfold pos_of, pos_in. rewrite E. reflexivity.
  - destruct (aget (y_accs y) pk) as [a|] eqn:E; [|discriminate]. destruct (a_pos a) eqn:Ep; [discriminate|].
    injection Hst as <-. apply (Hsame Q HQ0).
    assert (E0 : pos_in (y_accs y) pk = pos0) by (unfold pos_in, posn; rewrite E, Ep; reflexivity).
    constructor; cbn [y_mk y_accs]; auto.
    + intros pk'. unfold pos_of, pos_in. cbn [y_accs]. rewrite aget_adel. destruct (pk =? pk'); [cbn; auto|apply (F4 pk')].
    + rewrite tot_adel by (reflexivity || apply (iv_keys _ _ _ _ _ HI)). rewrite E0. cbn [pos0 p_quote]. lia.
  - destruct (aget (y_accs y) pk) as [a|] eqn:E; [|discriminate]. destruct (resize_slots _ _) as [L|]; [|discriminate].
    injection Hst as <-. apply (Hsame Q HQ0). pose proof (F4 pk) as [S1 S2]. rewrite (Hget _ _ E) in S1, S2.
    apply finv_acc; auto. rewrite (Hget _ _ E). reflexivity.
  - destruct (aget (y_accs y) pk) as [a|] eqn:E; [|discriminate]. destruct (slot_at _ _); [|discriminate].
    destruct (_ || _); [discriminate|]. injection Hst as <-. apply (Hsame Q HQ0). pose proof (F4 pk) as [S1 S2]. rewrite (Hget _ _ E) in S1, S2.
    apply finv_acc; auto. rewrite (Hget _ _ E). reflexivity.
  - destruct (aget (y_accs y) pk) as [a|] eqn:E; [|discriminate]. destruct (new_order _ _ _ _ _ _ _ _ _) as [r|] eqn:EN; [|discriminate].
    injection Hst as <-. destruct Hwf as [Hw Hcl]. destruct (inv_place _ _ _ _ _ _ _ _ _ _ _ _ HI Hw Hcl E EN) as (ol & new & n' & HC & HI').
    exists (Q ++ new), n'. split; [exact HI'|].
    destruct (call_fees HC) as (p & p' & P1 & P2 & _ & Hfees & Emk & Hpq & _ & _ & _ & HL & HS & _).
    rewrite (call_charges HC F1 F2) in Hfees.
    assert (Epos : pos_in (y_accs y) pk = p).
    { rewrite (pos_in_get _ _ _ E). unfold ensure_position in P1. destruct (a_pos a) as [p0|] eqn:Ep; [rewrite (posn_some _ _ Ep); congruence|].
      cbn in P1. injection P1 as <-. unfold posn. rewrite Ep. reflexivity. }
    constructor; cbn [y_mk y_accs].
    + rewrite Emk. exact F1.
    + rewrite Emk. exact F2.
    + rewrite Emk. exact F3.
    + intros pk'. unfold pos_of. cbn [y_accs]. rewrite pos_in_aset. destruct (pk =? pk'); [|apply (F4 pk')].
      rewrite (posn_some _ _ P2), HL, HS, <- Epos. apply (F4 pk).
    + intros f Hf. rewrite fills_app in Hf. apply in_app_or in Hf as [Hf|Hf]; [apply F5, Hf|]. apply (call_fill_fee HC f Hf).
    + rewrite tot_aset by reflexivity. rewrite Epos, (posn_some _ _ P2), Hpq, Hfees, charges_app.
      replace (mk_qls (r_market r)) with (mk_qls (y_mk y)) by (rewrite Emk; reflexivity). lia.
  - destruct (aget (y_accs y) pk) as [a|] eqn:E; [|discriminate]. destruct (find_order_id _ _ _) as [i|]; [|discriminate].
    unfold cancel_slot in Hst. destruct (cancel_by_slot _ _ _ _ _) as [[[bk' a']|]|] eqn:Ec; try discriminate. injection Hst as <-.
    apply (Hsame Q HQ0). destruct (cancel_by_slot_spec _ _ _ _ _ _ _ _ _ (iv_book _ _ _ _ _ HI) Ec) as [Hc _].
    eapply (finv_cancelled y Q pk (y_bk y)); [|exact Hc]. rewrite aset_same by exact E. destruct y; exact HF.
  - destruct (aget (y_accs y) pk) as [a|] eqn:E; [|discriminate]. destruct (find_client_order _ _ _) as [i|]; [|discriminate].
    unfold cancel_slot in Hst. destruct (cancel_by_slot _ _ _ _ _) as [[[bk' a']|]|] eqn:Ec; try discriminate. injection Hst as <-.
    apply (Hsame Q HQ0). destruct (cancel_by_slot_spec _ _ _ _ _ _ _ _ _ (iv_book _ _ _ _ _ HI) Ec) as [Hc _].
    eapply (finv_cancelled y Q pk (y_bk y)); [|exact Hc]. rewrite aset_same by exact E. destruct y; exact HF.
  - destruct (aget (y_accs y) pk) as [a|] eqn:E; [|discriminate]. destruct (cancel_all _ _ _ _ _ _ _ _) as [[bk' a']|] eqn:Ec; [|discriminate].
    injection Hst as <-. apply (Hsame Q HQ0).
    refine (proj1 (cancel_all_ind cap (mk_seq (y_mk y)) _ pk only
      (fun bk a => finv (mkSys bk (y_mk y) (y_q y) (aset (y_accs y) pk a)) Q) _ _ _ _ _ _ _ _ (iv_book _ _ _ _ _ HI) _ Ec)).
    + clear. intros bk a i bk1 a1 HS Hb Hcd _. eapply finv_cancelled; eauto.
    + rewrite aset_same by exact E. destruct y; exact HF.
  - destruct (inv_consume _ _ _ _ _ _ Hcap HI Hst) as (e & Q' & -> & HI'). exists Q', n. split; [exact HI'|].
    eapply finv_consume; [exact Hcap|exact (iv_q _ _ _ _ _ HI)| | |exact HF|exact Hst].
    + intros e' He'. apply (iv_qty _ _ _ _ _ HI). right; exact He'.
    + apply (iv_qty _ _ _ _ _ HI). left; reflexivity.
  - destruct (Z.eqb_spec pk1 pk2) as [|Hne]; [discriminate|].
    destruct (aget (y_accs y) pk1) as [a|] eqn:Ea; [|discriminate]. destruct (aget (y_accs y) pk2) as [b|] eqn:Eb; [|discriminate].
    destruct (a_pos a) as [p|] eqn:Ep; [|discriminate]. destruct (a_pos b) as [p'|] eqn:Ep'; [|discriminate].
    cbn [record_trade] in Hst. injection Hst as <-. apply (Hsame Q HQ0).
    pose proof (F4 pk1) as X1. pose proof (F4 pk2) as X2. rewrite (Hget _ _ Ea), (posn_some _ _ Ep) in X1. rewrite (Hget _ _ Eb), (posn_some _ _ Ep') in X2.
    constructor; cbn [y_mk y_accs with_oi mk_qls mk_maker_fee mk_long_funding mk_short_funding mk_fees_accrued]; auto.
    + intros pk. unfold pos_of. cbn [y_accs]. rewrite !pos_in_aset. destruct (pk2 =? pk); [exact X2|]. destruct (pk1 =? pk); [exact X1|apply (F4 pk)].
    + rewrite !tot_aset by reflexivity. rewrite pos_in_aset. destruct (Z.eqb_spec pk1 pk2); [contradiction|].
      rewrite (pos_in_get _ _ _ Ea), (pos_in_get _ _ _ Eb), (posn_some _ _ Ep), (posn_some _ _ Ep').
      cbn [posn set_pos a_pos p_quote]. lia.
  - contradiction.
  - destruct (aget (y_accs y) pk) as [a|] eqn:E; [|discriminate]. destruct (a_pos a) as [p|] eqn:Ep; [|discriminate].
    injection Hst as <-. apply (Hsame Q HQ0). pose proof (F4 pk) as X. rewrite (Hget _ _ E), (posn_some _ _ Ep) in X. destruct F3 as [F3a F3b].
    apply finv_acc; auto. rewrite (Hget _ _ E), (posn_some _ _ Ep). cbn [posn set_pos a_pos settle_funding p_quote].
    rewrite no_funding by auto. lia.
  - destruct (aget (y_accs y) pk) as [a|] eqn:E; [|discriminate]. destruct (a_pos a) as [p|] eqn:Ep; [|discriminate].
    cbv zeta in Hst. match type of Hst with (if ?b then _ else _) = _ => destruct b eqn:Eb; [|discriminate] end.
    injection Hst as <-. apply (Hsame Q HQ0). pose proof (F4 pk) as X. rewrite (Hget _ _ E), (posn_some _ _ Ep) in X.
    apply finv_acc; auto. rewrite (Hget _ _ E), (posn_some _ _ Ep).
    rewrite !andb_true_iff in Eb. destruct Eb as [[[[[_ Eb] _] _] _] _]. apply Z.eqb_eq in Eb. cbn [settle_funding p_quote] in Eb.
    rewrite no_funding in Eb by auto. cbn [posn a_pos pos0 p_quote]. lia.
  - contradiction.
  - destruct (aget (y_accs y) pk) as [a|] eqn:E; [|discriminate]. injection Hst as <-. apply (Hsame Q HQ0).
    pose proof (F4 pk) as [S1 S2]. rewrite (Hget _ _ E) in S1, S2. apply finv_acc; auto; rewrite posn_ensure; auto. rewrite (Hget _ _ E). reflexivity.
Qed.
Lemma finv_run cap capq : (0 < capq)%nat -> forall L y Q n y', inv cap capq y Q n -> finv y Q -> Forall op_wf L -> Forall quiet L ->
  run_ops y L = Some y' -> exists Q' n', inv cap capq y' Q' n' /\ finv y' Q'.
Proof.
  intros Hcap. induction L as [|x L IH]; intros y Q n y' HI HF HW HQ Hr; cbn [run_ops] in Hr.
  - injection Hr as <-. eauto.
  - inversion HW; subst. inversion HQ; subst. destruct (step y x) as [y1|] eqn:E; [|discriminate].
    destruct (finv_step _ _ _ _ _ _ _ Hcap HI HF H1 H3 E) as (Q1 & n1 & HI1 & HF1). eapply (IH y1); eauto.
Qed.
Lemma finv_fresh cap buf idx bls qls mf tf pe aw lw : 0 <= qls -> f32_rate mf ->
  finv (fresh cap buf idx bls qls mf tf pe aw lw) [].
Proof.
  intros Hq Hr. constructor; cbn; auto; try (intros f []); try (intros; split; reflexivity). 
Qed.

(** ** all pending fills have a positive price *)
Definition priced (Q : list event) : Prop := forall f, In f (fills Q) -> 1 <= f_price f.
Lemma step_queue y x y' : step y x = Some y' -> match x with OpPlace _ _ _ _ _ | OpConsume => True | _ => y_q y' = y_q y end.
Proof.
  unfold step. destruct x as [pk k|pk|pk k|pk i s|pk o oracle now limit|pk id|pk cid|pk only limit| |pk1 pk2 base q1 q2|pk qt os|pk|pk|lf sf mf tf pe fe aw lw|pk]; auto;
    repeat match goal with |- context[match ?t with _ => _ end] => destruct t; try discriminate end;
    unfold cancel_slot; repeat match goal with |- context[match ?t with _ => _ end] => destruct t; try discriminate end;
    intros E; injection E as <-; reflexivity.
Qed.
Lemma priced_step cap capq y Q n x y' : (0 < capq)%nat -> inv cap capq y Q n -> priced Q -> op_wf x -> step y x = Some y' ->
  exists Q' n', inv cap capq y' Q' n' /\ priced Q'.
Proof.
  intros Hcap HI HP Hwf Hst. pose proof (step_queue _ _ _ Hst) as Hq.
  destruct (inv_step _ _ _ _ _ _ _ Hcap HI Hwf Hst) as (Q' & n' & HI').
  pose proof (q_iter_ok _ _ _ (iv_q _ _ _ _ _ HI)) as E0. pose proof (q_iter_ok _ _ _ (iv_q _ _ _ _ _ HI')) as E1. cbn [fst] in E0, E1.
  destruct x as [pk k|pk|pk k|pk i s|pk o oracle now limit|pk id|pk cid|pk only limit| |pk1 pk2 base q1 q2|pk qt os|pk|pk|lf sf mf tf pe fe aw lw|pk];
    try (rewrite Hq, E0 in E1; injection E1 as <-; eauto).
  - unfold step in Hst. destruct (aget (y_accs y) pk) as [a|] eqn:E; [|discriminate]. destruct (new_order _ _ _ _ _ _ _ _ _) as [r|] eqn:EN; [|discriminate].
    injection Hst as <-. destruct Hwf as [Hw Hcl]. destruct (inv_place _ _ _ _ _ _ _ _ _ _ _ _ HI Hw Hcl E EN) as (ol & new & n2 & HC & HI2).
    exists (Q ++ new), n2. split; [exact HI2|]. intros f Hf. rewrite fills_app in Hf. apply in_app_or in Hf as [Hf|Hf]; [apply HP, Hf|].
    apply (call_fill_fee HC f Hf).
  - destruct (inv_consume _ _ _ _ _ _ Hcap HI Hst) as (e & Q2 & -> & HI2). exists Q2, n. split; [exact HI2|].
    intros f Hf. apply HP. apply in_fills. right. apply in_fills, Hf.
Qed.
Lemma priced_reached cap capq y Q : reached cap capq y -> q_iter (y_q y) = Some Q -> priced Q.
Proof.
  intros (buf & idx & bls & qls & mf & tf & pe & aw & lw & L & Hb & Hc & Hi & HF & Hr) HQ.
  assert (HX : exists Q' n', inv cap capq y Q' n' /\ priced Q').
  { revert HF Hr. pose proof (inv_fresh cap capq buf idx bls qls mf tf pe aw lw Hb Hc Hi) as HI.
    assert (HP : priced []) by (intros f []). revert HI HP. generalize (fresh cap buf idx bls qls mf tf pe aw lw) (@nil event) 0.
    induction L as [|x L IH]; intros y0 Q0 n0 HI HP HF Hr; cbn [run_ops] in Hr; [injection Hr as <-; eauto|].
    inversion HF; subst. destruct (step y0 x) as [y1|] eqn:E; [|discriminate].
    destruct (priced_step _ _ _ _ _ _ _ Hc HI HP H1 E) as (Q1 & n1 & HI1 & HP1). eapply (IH y1); eauto. }
  destruct HX as (Q' & n' & HI & HP). pose proof (q_iter_ok _ _ _ (iv_q _ _ _ _ _ HI)) as E. cbn [fst] in E. rewrite HQ in E. injection E as ->. exact HP.
Qed.
