(** Invariants of all histories of a perp market: quantities. *)
From Coq Require Import List ZArith Lia Bool Arith Permutation Sorted.
From Verif Require Import OrderTree OrderTreeSpec KeyBits OrderTreeRep BookArena BookArenaProofs
  BookArenaFacts Keys Fixed BookSide BookSideSpec BookSideProofs BookSideView BookSideWorst EventQueue PerpTypes Book
  BookLoop BookApply BookPlace BookSpec BookFacts BookResults BookResults2 BookCancel BookKeep PropBook PerpSystem PerpSpec PerpLots.
Import ListNotations.
Open Scope Z_scope.

(** ** account lists *)
Lemma aget_aset A pk a pk' : aget (aset A pk a) pk' = if pk =? pk' then Some a else aget A pk'.
Proof.
  induction A as [|[k b] A IH]; cbn [aset aget]; [reflexivity|].
  destruct (Z.eqb_spec k pk) as [->|]; cbn [aget].
  - destruct (pk =? pk'); reflexivity.
  - rewrite IH. destruct (Z.eqb_spec k pk'), (Z.eqb_spec pk pk'); congruence.
Qed.
Lemma aget_adel A pk pk' : aget (adel A pk) pk' = if pk =? pk' then None else aget A pk'.
Proof.
  unfold adel. induction A as [|[k b] A IH]; cbn [filter aget fst]; [destruct (_ =? _); reflexivity|].
  destruct (Z.eqb_spec k pk) as [->|]; cbn [negb aget]; rewrite IH.
  - destruct (pk =? pk'); reflexivity.
  - destruct (Z.eqb_spec k pk'), (Z.eqb_spec pk pk'); congruence.
Qed.
Lemma aset_keys A pk a : map fst (aset A pk a) = if existsb (fun x => fst x =? pk) A then map fst A else map fst A ++ [pk].
Proof.
  induction A as [|[k b] A IH]; cbn [aset map existsb fst]; [reflexivity|].
  destruct (Z.eqb_spec k pk) as [->|]; cbn [orb map fst]; [reflexivity|]. rewrite IH. destruct (existsb _ A); reflexivity.
Qed.
Lemma aset_nodup A pk a : NoDup (map fst A) -> NoDup (map fst (aset A pk a)).
Proof.
  intros HN. rewrite aset_keys. destruct (existsb _ A) eqn:E; [exact HN|].
  apply NoDup_Add with (a := pk) (l := map fst A); [rewrite <- (app_nil_r (map fst A)) at 1; apply Add_app|].
  split; [exact HN|]. intros Hin. apply in_map_iff in Hin as (x & Ex & Hx).
  assert (existsb (fun x => fst x =? pk) A = true) by (apply existsb_exists; exists x; rewrite Ex, Z.eqb_refl; auto). congruence.
Qed.
Lemma adel_nodup A pk : NoDup (map fst A) -> NoDup (map fst (adel A pk)).
Proof.
  unfold adel. induction A as [|[k b] A IH]; cbn [filter map fst]; intros HN; [constructor|]. inversion HN as [|? ? Hn HN']; subst.
  destruct (negb (k =? pk)); [|apply IH, HN']. cbn [map fst]. constructor; [|apply IH, HN'].
  intros Hin. apply Hn. apply in_map_iff in Hin as (x & Ex & Hx). apply filter_In in Hx. apply in_map_iff. exists x. tauto.
Qed.
Lemma aget_none A pk : aget A pk = None -> existsb (fun x => fst x =? pk) A = false.
Proof.
  induction A as [|[k b] A IH]; cbn [aget existsb fst]; [reflexivity|]. destruct (k =? pk); [discriminate|]. exact IH.
Qed.
Definition totA (g : position -> Z) (A : list (Z * account)) : Z := sumZ (map (fun x => g (posn (snd x))) A).
Lemma tot_aset g A pk a : g pos0 = 0 -> totA g (aset A pk a) = totA g A - g (pos_in A pk) + g (posn a).
Proof.
  intros Hg. unfold totA, sumZ, pos_in. induction A as [|[k b] A IH]; cbn [aset map fold_right aget snd]; [lia|].
  destruct (k =? pk); cbn [map fold_right snd]; [lia|]. rewrite IH. lia.
Qed.
Lemma aget_notin A pk : ~ In pk (map fst A) -> aget A pk = None.
Proof.
  induction A as [|[k b] A IH]; cbn [map fst aget]; intros Hn; [reflexivity|].
  destruct (Z.eqb_spec k pk) as [->|]; [exfalso; apply Hn; left; reflexivity|]. apply IH. intros Hi; apply Hn; right; exact Hi.
Qed.
Lemma tot_adel g A pk : g pos0 = 0 -> NoDup (map fst A) -> totA g (adel A pk) = totA g A - g (pos_in A pk).
Proof.
  intros Hg. unfold adel. induction A as [|[k b] A IH]; intros HN; [cbn; lia|]. inversion HN as [|? ? Hn HN']; subst.
  specialize (IH HN'). unfold pos_in in *. cbn [filter fst aget]. destruct (Z.eqb_spec k pk) as [->|Hne]; cbn [negb].
  - rewrite IH, (aget_notin _ _ Hn). unfold totA, sumZ. cbn [map fold_right snd]. lia.
  - unfold totA, sumZ in *. cbn [map fold_right snd]. rewrite IH. lia.
Qed.
Lemma pos_in_aset A pk a pk' : pos_in (aset A pk a) pk' = if pk =? pk' then posn a else pos_in A pk'.
Proof. unfold pos_in. rewrite aget_aset. destruct (pk =? pk'); reflexivity. Qed.
Lemma pos_in_get A pk a : aget A pk = Some a -> pos_in A pk = posn a.
Proof. unfold pos_in. intros ->. reflexivity. Qed.

Definition fquote (f : fill) : Z := f_price f * f_qty f.
Definition ev_pos (e : event) : Prop := match e with EFill f => 0 < f_qty f | EOut u => 0 < u_qty u end.

Record inv (cap capq : nat) (y : sys) (Q : list event) (n : Z) : Prop := mkInv {
  iv_idx : mk_index (y_mk y) <> FREE;
  iv_seq : 0 <= mk_seq (y_mk y);
  iv_book : book_ok cap (mk_seq (y_mk y)) (y_bk y);
  iv_q : qview capq (y_q y) Q n;
  iv_keys : NoDup (map fst (y_accs y));
  iv_lots : forall pk sd, side_lots sd (pos_of y pk) = owned pk (resting sd (y_bk y)) + in_flight sd pk Q;
  iv_tb : forall pk, p_taker_base (pos_of y pk) = taking pk f_qty Q;
  iv_tq : forall pk, p_taker_quote (pos_of y pk) = - taking pk fquote Q;
  iv_qty : forall e, In e Q -> ev_pos e;
  iv_base : totA p_base (y_accs y) = 0;
  iv_oi : mk_open_interest (y_mk y) = totA (fun p => Z.abs (p_base p)) (y_accs y) }.

(** an update of one account that keeps what the invariant talks about *)
Definition same_core (p p' : position) : Prop :=
  p_base p' = p_base p /\ p_bids p' = p_bids p /\ p_asks p' = p_asks p /\
  p_taker_base p' = p_taker_base p /\ p_taker_quote p' = p_taker_quote p.
Lemma same_core_refl p : same_core p p. Proof. repeat split. Qed.
Lemma same_core_lots p p' sd : same_core p p' -> side_lots sd p' = side_lots sd p.
Proof. intros (_ & H1 & H2 & _). destruct sd; assumption. Qed.

Lemma inv_accs cap capq y Q n A mk' : inv cap capq y Q n ->
  mk_index mk' = mk_index (y_mk y) -> mk_seq mk' = mk_seq (y_mk y) -> mk_open_interest mk' = mk_open_interest (y_mk y) ->
  NoDup (map fst A) -> (forall pk, same_core (pos_of y pk) (pos_in A pk)) ->
  totA p_base A = totA p_base (y_accs y) -> totA (fun p => Z.abs (p_base p)) A = totA (fun p => Z.abs (p_base p)) (y_accs y) ->
  inv cap capq (mkSys (y_bk y) mk' (y_q y) A) Q n.
Proof.
  intros [H1 H2 H3 H4 H5 H6 H7 H8 H9 H10 H11] E1 E2 E3 HN HS T1 T2.
  constructor; cbn [y_mk y_bk y_q y_accs pos_of]; rewrite ?E1, ?E2, ?E3; try assumption.
  - intros pk sd. rewrite <- H6. apply same_core_lots, HS.
  - intros pk. rewrite <- H7. apply HS.
  - intros pk. rewrite <- H8. apply HS.
  - congruence.
  - congruence.
Qed.

Lemma inv_acc cap capq y Q n pk a' : inv cap capq y Q n ->
  same_core (pos_of y pk) (posn a') -> inv cap capq (with_acc y pk a') Q n.
Proof.
  intros HI HS. pose proof HS as (HB & _). unfold with_acc. apply (inv_accs cap capq y); try reflexivity; try exact HI.
  - apply aset_nodup, HI.
  - intros pk'. rewrite pos_in_aset. destruct (Z.eqb_spec pk pk') as [<-|]; [exact HS|apply same_core_refl].
  - rewrite tot_aset by reflexivity. unfold pos_of in HB. rewrite HB. lia.
  - rewrite tot_aset by reflexivity. unfold pos_of in HB. rewrite HB. lia.
Qed.

Lemma pos_of_get y pk a : aget (y_accs y) pk = Some a -> pos_of y pk = posn a.
Proof. apply pos_in_get. Qed.

Lemma record_trade_core p mk b q p' mk' : record_trade p mk b q = (p', mk') ->
  p_base p' = p_base p + b /\ p_bids p' = p_bids p /\ p_asks p' = p_asks p /\
  p_taker_base p' = p_taker_base p /\ p_taker_quote p' = p_taker_quote p /\ p_quote p' = p_quote p + q /\
  mk' = with_oi mk (mk_open_interest mk + (Z.abs (p_base p + b) - Z.abs (p_base p))).
Proof. unfold record_trade. intros E; injection E as <- <-. cbn. auto 10. Qed.

(** ** placing *)
Lemma inv_place cap capq y Q n pk o oracle now limit a r :
  inv cap capq y Q n -> order_wf o -> clock_ok now -> aget (y_accs y) pk = Some a ->
  new_order (y_bk y) o (y_mk y) (y_q y) oracle (ensure_position a) pk now limit = Some r ->
  exists ol new n', order_call cap capq (y_bk y) o (y_mk y) (y_q y) oracle (ensure_position a) pk now limit r ol Q new n n' /\
    inv cap capq (mkSys (r_book r) (r_market r) (r_q r) (aset (y_accs y) pk (r_acc r))) (Q ++ new) n'.
Proof.
  intros HI Hwf Hcl Ha HN. pose proof HI as [H1 H2 H3 H4 H5 H6 H7 H8 H9 H10 H11].
  destruct (order_call_intro _ _ _ _ _ _ _ _ _ _ _ _ _ _ HN Hwf Hcl H2 H3 H4) as (ol & new & n' & HC).
  exists ol, new, n'. split; [exact HC|].
  destruct (call_fees HC) as (p & p' & Hp & Hp' & _ & _ & Em & _ & Eb & Etb & Etq & _ & _ & Eos & Eown).
  change (side_lots (o_side o) p' = side_lots (o_side o) p + posted_qty o r) in Eown.
  assert (Epn : pos_of y pk = p).
  { rewrite (pos_of_get _ _ _ Ha). unfold posn, ensure_position in Hp |- *.
    destruct (a_pos a) eqn:E; [rewrite E in Hp|cbn [a_pos] in Hp]; injection Hp as Hp; exact Hp. }
  assert (Epn' : posn (r_acc r) = p') by (unfold posn; rewrite Hp'; reflexivity).
  assert (Hseq : mk_seq (r_market r) = mk_seq (y_mk y) + 1 /\ mk_index (r_market r) = mk_index (y_mk y) /\
                 mk_open_interest (r_market r) = mk_open_interest (y_mk y)) by (rewrite Em; auto).
  destruct Hseq as (S1 & S2 & S3).
  constructor; cbn [y_mk y_bk y_q y_accs].
  - congruence.
  - lia.
  - apply (call_book_ok HC).
  - apply HC.
  - apply aset_nodup, H5.
  - intros pk' sd. unfold pos_of. cbn [y_accs]. rewrite pos_in_aset, in_flight_app, Epn'.
    assert (Hp0 : side_lots sd (if pk =? pk' then p' else pos_in (y_accs y) pk') =
      side_lots sd (pos_of y pk') + (if pk =? pk' then (if Bool.eqb sd (o_side o) then posted_qty o r else 0) else 0)).
    { destruct (Z.eqb_spec pk pk') as [<-|]; [|unfold pos_of; lia]. rewrite Epn.
      destruct (Bool.eqb_spec sd (o_side o)) as [->|Hne]; [exact Eown|].
      assert (sd = negb (o_side o)) as -> by (apply neq_negb, Hne). rewrite Eos. lia. }
    rewrite Hp0, H6. clear Hp0.
    destruct (Bool.bool_dec sd (o_side o)) as [Esd|Hne]; [rewrite Esd, eqb_reflx|].
    + pose proof (call_lots_own HC pk'). lia.
    + assert (sd = negb (o_side o)) as -> by (apply neq_negb, Hne).
      rewrite eqb_negb1. pose proof (call_lots_other HC pk'). destruct (pk =? pk'); lia.
  - intros pk'. unfold pos_of. cbn [y_accs]. rewrite pos_in_aset, taking_app, Epn', (call_taking HC). specialize (H7 pk').
    destruct (Z.eqb_spec pk pk') as [<-|]; [|unfold pos_of in H7; lia]. rewrite Epn in H7. unfold fill_base in Etb. lia.
  - intros pk'. unfold pos_of. cbn [y_accs]. rewrite pos_in_aset, taking_app, Epn', (call_taking HC). specialize (H8 pk').
    destruct (Z.eqb_spec pk pk') as [<-|]; [|unfold pos_of in H8; lia]. rewrite Epn in H8. unfold fill_quote in Etq.
    unfold fquote at 2. lia.
  - intros e He. apply in_app_or in He as [He|He]; [apply H9, He|]. destruct e as [f|u].
    + destruct (call_fill_prices HC f) as (_ & _ & (e & _ & _ & Hm) & _).
      { unfold fills. apply in_flat_map. exists (EFill f). split; [exact He|left; reflexivity]. }
      cbn. apply Hm.
    + cbn [ev_pos]. clear -HC He. open_call HC. rewrite Enew in He. apply in_app_or in He as [He|He].
      * assert (HF : Forall item_ok (map fst acts)).
        { assert (HF : Forall item_ok (map fst acts ++ rest)).
          { rewrite pl_es0. apply Forall_forall. intros i Hi. apply in_map_iff in Hi as (e & <- & Hee).
            eapply item_of_ok; [exact Hoo|]. eapply Permutation_in; [exact pl_perm0|exact Hee]. }
          apply Forall_app in HF. apply HF. }
        clear -He HF. revert He. generalize n. induction acts as [|[i ac] acts IH]; intros m He; [destruct He|].
        cbn [act_events] in He. inversion HF as [|? ? Hi HF']; subst. apply in_app_or in He as [He|He]; [|eapply IH; eauto].
        destruct ac; cbn [act_event] in He; destruct He as [He|[]] || destruct He; unfold out_of_leaf, make_fill in He; try discriminate;
          injection He as <-; cbn; apply Hi.
      * assert (Hrem : forall e, In e removed -> 0 < l_quantity (snd e)).
        { intros e Hee. apply Hos. eapply Permutation_in; [symmetry; exact pl_own0|]. apply in_or_app; left; exact Hee. }
        clear -He Hrem. revert He. generalize (n + Z.of_nat (length (act_events x n acts))).
        induction removed as [|e rem IH]; intros m He; [destruct He|]. cbn [out_events] in He. destruct He as [He|He].
        -- injection He as <-. cbn. apply Hrem. left; reflexivity.
        -- eapply IH; [|exact He]. intros e' He'. apply Hrem. right; exact He'.
  - rewrite tot_aset by reflexivity. unfold pos_of in Epn. rewrite Epn, Epn'. lia.
  - rewrite tot_aset by reflexivity. unfold pos_of in Epn. rewrite Epn, Epn'. rewrite S3. lia.
Qed.

(** ** cancelling *)
Lemma inv_cancelled cap capq y Q n pk i a bk' a' :
  inv cap capq y Q n -> pos_of y pk = posn a -> cancelled (y_bk y) a (mk_index (y_mk y)) pk i bk' a' ->
  book_ok cap (mk_seq (y_mk y)) bk' ->
  inv cap capq (mkSys bk' (y_mk y) (y_q y) (aset (y_accs y) pk a')) Q n.
Proof.
  intros HI Ha (s & p & p' & qty & Hs & Hm & Hp & Hp' & _ & Ho & Ep' & Hc) Hb.
  change (p' = adjust_maker_lots p (s_side s) (- qty)) in Ep'.
  pose proof HI as [H1 H2 H3 H4 H5 H6 H7 H8 H9 H10 H11].
  assert (Epn : pos_of y pk = p) by (rewrite Ha; unfold posn; rewrite Hp; reflexivity).
  assert (Epn' : posn a' = p') by (unfold posn; rewrite Hp'; reflexivity).
  assert (Eb : p_base p' = p_base p /\ p_taker_base p' = p_taker_base p /\ p_taker_quote p' = p_taker_quote p).
  { rewrite Ep'. destruct (s_side s); cbn; auto. }
  destruct Eb as (Eb & Et1 & Et2). unfold pos_of in Epn.
  assert (Hown : forall pk', owned pk' (resting (s_side s) bk') =
     owned pk' (resting (s_side s) (y_bk y)) - if pk =? pk' then qty else 0).
  { intros pk'. destruct Hc as [(l & _ & Hlo & _ & -> & HP)|(-> & _ & _ & ->)].
    - rewrite (owned_perm _ _ _ HP), owned_cons. cbn [snd]. rewrite Hlo. lia.
    - destruct (pk =? pk'); lia. }
  constructor; cbn [y_mk y_bk y_q y_accs]; try assumption.
  - apply aset_nodup, H5.
  - intros pk' sd. unfold pos_of. cbn [y_accs]. rewrite pos_in_aset, Epn'. specialize (H6 pk' sd).
    destruct (Bool.eqb_spec sd (s_side s)) as [->|Hne].
    + rewrite Hown. destruct (Z.eqb_spec pk pk') as [<-|]; unfold pos_of in H6; [|lia].
      rewrite Ep', side_lots_adjust. rewrite Epn in H6. lia.
    + assert (sd = negb (s_side s)) as -> by (apply neq_negb, Hne). rewrite Ho.
      destruct (Z.eqb_spec pk pk') as [<-|]; unfold pos_of in H6; [|lia].
      rewrite Ep', side_lots_adjust_other. rewrite Epn in H6. lia.
  - intros pk'. unfold pos_of. cbn [y_accs]. rewrite pos_in_aset, Epn'. specialize (H7 pk'). unfold pos_of in H7.
    destruct (Z.eqb_spec pk pk') as [<-|]; [|lia]. rewrite Epn in H7. lia.
  - intros pk'. unfold pos_of. cbn [y_accs]. rewrite pos_in_aset, Epn'. specialize (H8 pk'). unfold pos_of in H8.
    destruct (Z.eqb_spec pk pk') as [<-|]; [|lia]. rewrite Epn in H8. lia.
  - rewrite tot_aset by reflexivity. rewrite Epn, Epn'. lia.
  - rewrite tot_aset by reflexivity. rewrite Epn, Epn'. lia.
Qed.

Lemma aset_aset A pk a b : aset (aset A pk a) pk b = aset A pk b.
Proof.
  induction A as [|[k c] A IH]; cbn [aset]; [rewrite Z.eqb_refl; reflexivity|].
  destruct (k =? pk) eqn:E; cbn [aset]; rewrite E; [reflexivity|]. rewrite IH. reflexivity.
Qed.
Lemma aset_same A pk a : aget A pk = Some a -> aset A pk a = A.
Proof.
  induction A as [|[k c] A IH]; cbn [aget aset]; [discriminate|]. destruct (k =? pk); [congruence|].
  intros E. rewrite IH by exact E. reflexivity.
Qed.

Lemma cancel_all_ind cap seq mkt pk only (P : orderbook -> account -> Prop) :
  (forall bk a i bk1 a1, P bk a -> book_ok cap seq bk -> cancelled bk a mkt pk i bk1 a1 -> book_ok cap seq bk1 -> P bk1 a1) ->
  forall n bk a limit i bk' a', book_ok cap seq bk -> P bk a ->
  cancel_all bk a mkt pk limit only i n = Some (bk', a') -> P bk' a' /\ book_ok cap seq bk'.
Proof.
  intros HP. induction n as [|n IH]; intros bk a limit i bk' a' Hb Hbk Hc; cbn [cancel_all] in Hc.
  - injection Hc as <- <-. auto.
  - destruct (slot_at a i) as [s|]; [|discriminate].
    destruct (negb (slot_active s mkt)); [eapply IH; eauto|].
    destruct (match only with None => false | Some sd => negb (Bool.eqb sd (s_side s)) end); [eapply IH; eauto|].
    destruct (cancel_by_slot bk a mkt pk i) as [[[bk1 a1]|u]|] eqn:Ec; [| |discriminate].
    + destruct (cancel_by_slot_spec _ _ _ _ _ _ _ _ _ Hb Ec) as [Hcd Hb1].
      pose proof (HP _ _ _ _ _ Hbk Hb Hcd Hb1) as HP1.
      destruct limit as [|[|limit]]; [discriminate|injection Hc as <- <-; auto|eapply IH; eauto].
    + destruct limit as [|[|limit]]; [discriminate|injection Hc as <- <-; auto|eapply IH; eauto].
Qed.

Lemma inv_cancel_all cap capq y Q n pk a only limit i k bk' a' :
  inv cap capq y Q n -> aget (y_accs y) pk = Some a ->
  cancel_all (y_bk y) a (mk_index (y_mk y)) pk limit only i k = Some (bk', a') ->
  inv cap capq (mkSys bk' (y_mk y) (y_q y) (aset (y_accs y) pk a')) Q n.
Proof.
  intros HI Ha Hc.
  refine (proj1 (cancel_all_ind cap (mk_seq (y_mk y)) _ pk only
    (fun bk a => inv cap capq (mkSys bk (y_mk y) (y_q y) (aset (y_accs y) pk a)) Q n) _ _ _ _ _ _ _ _ (iv_book _ _ _ _ _ HI) _ Hc)).
  - clear. intros bk a i bk1 a1 HI Hb Hcd Hb1.
    pose proof (inv_cancelled cap capq _ Q n pk i a bk1 a1 HI) as HX. cbn [y_bk y_mk y_q y_accs] in HX.
    rewrite aset_aset in HX. apply HX; auto. unfold pos_of. cbn [y_accs]. rewrite pos_in_aset, Z.eqb_refl. reflexivity.
  - rewrite (aset_same _ _ _ Ha). destruct y; exact HI.
Qed.

(** ** consuming *)
Lemma pop_view capq q Q n q' v : (0 < capq)%nat -> qview capq q Q n -> q_pop q = Some (inl (v, q')) ->
  exists Q', Q = v :: Q' /\ qview capq q' Q' n.
Proof.
  unfold qview. intros Hcap Hq Hp. pose proof Hq as (Hb & Hh & Hc & Hle & Hs & Hn & Hnth). cbn [fst snd] in *.
  unfold q_pop, q_empty in Hp. destruct (Nat.eqb_spec (q_count q) 0) as [E|E]; [discriminate|].
  pose proof (Hnth 0%nat ltac:(lia)) as H0. rewrite Nat.add_0_r, Nat.mod_small in H0 by lia. rewrite H0 in Hp.
  destruct Q as [|w Q']; [cbn in *; lia|]. cbn [nth_error] in Hp. injection Hp as <- <-. exists Q'. split; [reflexivity|].
  unfold qrep. cbn [q_head q_count q_seq q_buf fst snd]. cbn [length] in Hc. rewrite Hb.
  refine (conj eq_refl (conj _ (conj _ (conj _ (conj _ (conj _ _)))))); try lia.
  { apply Nat.mod_upper_bound. lia. }
  intros i Hi. rewrite Nat.add_mod_idemp_l by lia.
  replace (q_head q + 1 + i)%nat with (q_head q + S i)%nat by lia. rewrite (Hnth (S i)) by lia. reflexivity.
Qed.
Lemma pop_view_ok capq q v Q' n : (0 < capq)%nat -> qview capq q (v :: Q') n -> exists q', q_pop q = Some (inl (v, q')).
Proof.
  unfold qview. intros Hcap (Hb & Hh & Hc & Hle & Hs & Hn & Hnth). cbn [fst snd length] in *.
  unfold q_pop, q_empty. destruct (Nat.eqb_spec (q_count q) 0) as [E|E]; [lia|].
  pose proof (Hnth 0%nat ltac:(lia)) as H0. rewrite Nat.add_0_r, Nat.mod_small in H0 by lia. rewrite H0. cbn [nth_error]. eauto.
Qed.

(** signed by side: bids count positive *)
Definition sg (sd : side) (k : Z) : Z := if sd then k else - k.

Lemma maker_core a mk f a' mk' : 0 < f_qty f -> execute_maker a mk f = Some (a', mk') ->
  exists p p', a_pos a = Some p /\ a_pos a' = Some p' /\
    p_base p' = p_base p - sg (f_taker_side f) (f_qty f) /\
    p_taker_base p' = p_taker_base p /\ p_taker_quote p' = p_taker_quote p /\
    side_lots (negb (f_taker_side f)) p' = side_lots (negb (f_taker_side f)) p - f_qty f /\
    side_lots (f_taker_side f) p' = side_lots (f_taker_side f) p /\
    mk' = with_oi mk (mk_open_interest mk + (Z.abs (p_base p') - Z.abs (p_base p))).
Proof.
  intros Hq. unfold execute_maker, base_quote_change. destruct (f_taker_side f); cbn [negb sg];
    destruct (a_pos a) as [p|]; try discriminate; cbn [record_trade record_trading_fee settle_funding p_base];
    destruct (slot_at _ _) as [s|]; try discriminate;
    (destruct (slot_active s (mk_index mk) && ((f_maker_id f =? 0) || (s_id s =? f_maker_id f)));
     intros E; injection E as <- <-; exists p; eexists; (split; [reflexivity|]; split; [reflexivity|]);
     unfold side_lots, adjust_maker_lots; cbn [p_base p_taker_base p_taker_quote p_bids p_asks set_pos a_pos set_slot];
     repeat (split; [lia|]); f_equal; lia).
Qed.
Lemma taker_core a mk f a' mk' : execute_taker a mk f = Some (a', mk') ->
  exists p p', a_pos a = Some p /\ a_pos a' = Some p' /\
    p_base p' = p_base p + sg (f_taker_side f) (f_qty f) /\
    p_taker_base p' = p_taker_base p - sg (f_taker_side f) (f_qty f) /\
    p_taker_quote p' = p_taker_quote p + sg (f_taker_side f) (fquote f) /\
    p_bids p' = p_bids p /\ p_asks p' = p_asks p /\
    mk' = with_oi mk (mk_open_interest mk + (Z.abs (p_base p') - Z.abs (p_base p))) /\ a_oo a' = a_oo a.
Proof.
  unfold execute_taker, base_quote_change, fquote. destruct (a_pos a) as [p|]; [|discriminate].
  destruct (f_taker_side f); cbn [sg record_trade remove_taker_trade settle_funding p_base];
    intros E; injection E as <- <-; exists p; eexists; (split; [reflexivity|]; split; [reflexivity|]);
    cbn [p_base p_taker_base p_taker_quote p_bids p_asks set_pos a_oo]; repeat (split; [lia|]); (split; [f_equal; lia|reflexivity]).
Qed.
Lemma out_core a mkt u a' : execute_out a mkt u = Some a' ->
  exists p, a_pos a = Some p /\ a_pos a' = Some (adjust_maker_lots p (u_side u) (- u_qty u)).
Proof.
  unfold execute_out. destruct (a_pos a) as [p|]; [|discriminate]. destruct (slot_at _ _) as [s|]; [|discriminate].
  destruct (_ && _); intros E; injection E as <-; exists p; split; reflexivity.
Qed.

(** what consuming a fill does *)
Definition filled (A : list (Z * account)) (mk : market) (f : fill) (A' : list (Z * account)) (mk' : market) : Prop :=
  exists am am' mk1 at0 at',
    aget A (f_maker f) = Some am /\ execute_maker am mk f = Some (am', mk1) /\
    aget (aset A (f_maker f) am') (f_taker f) = Some at0 /\ execute_taker at0 mk1 f = Some (at', mk') /\
    A' = aset (aset A (f_maker f) am') (f_taker f) at'.

Lemma consume_inv y y' : consume y = Some y' ->
  (exists f q', q_pop (y_q y) = Some (inl (EFill f, q')) /\ y_bk y' = y_bk y /\ y_q y' = q' /\
     filled (y_accs y) (y_mk y) f (y_accs y') (y_mk y')) \/
  (exists u q' a a', q_pop (y_q y) = Some (inl (EOut u, q')) /\ aget (y_accs y) (u_owner u) = Some a /\
     execute_out a (mk_index (y_mk y)) u = Some a' /\
     y' = mkSys (y_bk y) (y_mk y) q' (aset (y_accs y) (u_owner u) a')).
Proof.
  unfold consume. destruct (q_pop (y_q y)) as [[[[f|u] q']|]|]; try discriminate.
  - intros E. left. exists f, q'. split; [reflexivity|]. unfold filled.
    destruct (Z.eqb_spec (f_maker f) (f_taker f)) as [Ef|Ef].
    + destruct (aget (y_accs y) (f_maker f)) as [a|] eqn:Ea; [|discriminate].
      destruct (execute_maker a (y_mk y) f) as [[a1 mk1]|] eqn:E1; [|discriminate].
      destruct (execute_taker a1 mk1 f) as [[a2 mk2]|] eqn:E2; [|discriminate]. injection E as <-.
      cbn [y_bk y_q y_accs y_mk]. do 2 (split; [reflexivity|]). exists a, a1, mk1, a1, a2.
      split; [reflexivity|]. split; [exact E1|]. rewrite <- Ef, aget_aset, Z.eqb_refl. split; [reflexivity|]. split; [exact E2|].
      rewrite aset_aset. reflexivity.
    + destruct (aget (y_accs y) (f_maker f)) as [a|] eqn:Ea; [|discriminate].
      destruct (aget (y_accs y) (f_taker f)) as [b|] eqn:Eb; [|discriminate].
      destruct (execute_maker a (y_mk y) f) as [[a1 mk1]|] eqn:E1; [|discriminate].
      destruct (execute_taker b mk1 f) as [[a2 mk2]|] eqn:E2; [|discriminate]. injection E as <-.
      cbn [y_bk y_q y_accs y_mk]. do 2 (split; [reflexivity|]). exists a, a1, mk1, b, a2.
      split; [reflexivity|]. split; [exact E1|]. rewrite aget_aset. apply Z.eqb_neq in Ef. rewrite Ef. auto.
  - intros E. right. exists u, q'. destruct (aget (y_accs y) (u_owner u)) as [a|] eqn:Ea; [|discriminate].
    destruct (execute_out a (mk_index (y_mk y)) u) as [a'|] eqn:E1; [|discriminate]. injection E as <-. exists a, a'. auto.
Qed.

Lemma in_flight_fill sd pk f : in_flight sd pk [EFill f] =
  if (f_maker f =? pk) && Bool.eqb (f_taker_side f) (negb sd) then f_qty f else 0.
Proof. unfold in_flight, sumZ. cbn [map fold_right]. lia. Qed.
Lemma taking_cons pk g e Q : taking pk g (e :: Q) = taking pk g [e] + taking pk g Q.
Proof. apply (taking_app pk g [e] Q). Qed.
Lemma taking_fill pk g f : taking pk g [EFill f] = if f_taker f =? pk then sg (f_taker_side f) (g f) else 0.
Proof. unfold taking, sumZ, sg. cbn [fills flat_map app map fold_right]. lia. Qed.

Lemma inv_consume cap capq y Q n y' : (0 < capq)%nat -> inv cap capq y Q n -> consume y = Some y' ->
  exists e Q', Q = e :: Q' /\ inv cap capq y' Q' n.
Proof.
  intros Hcap HI Hc. pose proof HI as [H1 H2 H3 H4 H5 H6 H7 H8 H9 H10 H11].
  destruct (consume_inv _ _ Hc) as [(f & q' & Hp & Eb & Eq & Hf)|(u & q' & a & a' & Hp & Ha & Hx & ->)];
    destruct (pop_view _ _ _ _ _ _ Hcap H4 Hp) as (Q' & -> & HQ'); (eexists; exists Q'; split; [reflexivity|]).
  - destruct Hf as (am & am' & mk1 & at0 & at' & Hm & Em & Ht & Et & EA).
    assert (Hq : 0 < f_qty f) by (apply (H9 (EFill f)); left; reflexivity).
    destruct (maker_core _ _ _ _ _ Hq Em) as (p & p' & Hp1 & Hp1' & M1 & M2 & M3 & M4 & M5 & M6).
    destruct (taker_core _ _ _ _ _ Et) as (t & t' & Ht1 & Ht1' & T1 & T2 & T3 & T4 & T5 & T6 & _).
    set (A1 := aset (y_accs y) (f_maker f) am') in *.
    assert (P0 : pos_in (y_accs y) (f_maker f) = p) by (unfold pos_in, posn; rewrite Hm, Hp1; reflexivity).
    assert (P1 : pos_in A1 (f_taker f) = t) by (unfold pos_in, posn; rewrite Ht, Ht1; reflexivity).
    assert (Em' : posn am' = p') by (unfold posn; rewrite Hp1'; reflexivity).
    assert (Et' : posn at' = t') by (unfold posn; rewrite Ht1'; reflexivity).
    assert (B1 : mk_index (y_mk y') = mk_index (y_mk y) /\ mk_seq (y_mk y') = mk_seq (y_mk y)) by (rewrite T6, M6; auto).
    destruct B1 as [B1 B2].
    assert (L1 : forall pk, pos_in A1 pk = if f_maker f =? pk then p' else pos_in (y_accs y) pk).
    { intros pk. unfold A1. rewrite pos_in_aset, Em'. reflexivity. }
    assert (L2 : forall pk, pos_in (y_accs y') pk = if f_taker f =? pk then t' else pos_in A1 pk).
    { intros pk. rewrite EA, pos_in_aset, Et'. reflexivity. }
    constructor; rewrite ?B1, ?B2, ?Eb, ?Eq; auto.
    + rewrite EA. apply aset_nodup, aset_nodup, H5.
    + intros pk sd. specialize (H6 pk sd). unfold pos_of in *. rewrite in_flight_cons, in_flight_fill in H6.
      assert (S2 : side_lots sd (pos_in (y_accs y') pk) = side_lots sd (pos_in A1 pk)).
      { rewrite L2. destruct (Z.eqb_spec (f_taker f) pk) as [<-|]; [|reflexivity]. rewrite P1. unfold side_lots. rewrite T4, T5. reflexivity. }
      rewrite S2, L1. destruct (Z.eqb_spec (f_maker f) pk) as [Epk|]; cbn [andb] in H6; [subst pk|lia].
      rewrite P0 in H6. destruct (Bool.eqb_spec (f_taker_side f) (negb sd)) as [E|E].
      * rewrite E, negb_involutive in M4. lia.
      * assert (Es : f_taker_side f = sd) by (apply neq_negb in E; rewrite negb_involutive in E; exact E). rewrite Es in M5. lia.
    + intros pk. specialize (H7 pk). unfold pos_of in *. rewrite taking_cons, taking_fill in H7.
      assert (S1 : p_taker_base (pos_in A1 pk) = p_taker_base (pos_in (y_accs y) pk)).
      { rewrite L1. destruct (Z.eqb_spec (f_maker f) pk) as [<-|]; [|reflexivity]. rewrite P0. exact M2. }
      rewrite L2. destruct (Z.eqb_spec (f_taker f) pk) as [Epk|]; [subst pk|lia]. rewrite P1 in S1. lia.
    + intros pk. specialize (H8 pk). unfold pos_of in *. rewrite taking_cons, taking_fill in H8.
      assert (S1 : p_taker_quote (pos_in A1 pk) = p_taker_quote (pos_in (y_accs y) pk)).
      { rewrite L1. destruct (Z.eqb_spec (f_maker f) pk) as [<-|]; [|reflexivity]. rewrite P0. exact M3. }
      rewrite L2. destruct (Z.eqb_spec (f_taker f) pk) as [Epk|]; [subst pk|lia]. rewrite P1 in S1. lia.
    + intros e He. apply H9. right; exact He.
    + rewrite EA, tot_aset by reflexivity. rewrite P1, Et'. unfold A1. rewrite tot_aset by reflexivity. rewrite P0, Em'. lia.
    + rewrite EA, tot_aset by reflexivity. rewrite P1, Et'. unfold A1. rewrite tot_aset by reflexivity. rewrite P0, Em', T6, M6.
      cbn [with_oi mk_open_interest]. lia.
  - destruct (out_core _ _ _ _ Hx) as (p & Hp1 & Hp1').
    assert (P0 : pos_in (y_accs y) (u_owner u) = p) by (unfold pos_in, posn; rewrite Ha, Hp1; reflexivity).
    assert (Em' : posn a' = adjust_maker_lots p (u_side u) (- u_qty u)) by (unfold posn; rewrite Hp1'; reflexivity).
    assert (Eb : p_base (posn a') = p_base p /\ p_taker_base (posn a') = p_taker_base p /\ p_taker_quote (posn a') = p_taker_quote p).
    { rewrite Em'. destruct (u_side u); auto. }
    destruct Eb as (Eb & Et1 & Et2).
    constructor; cbn [y_mk y_bk y_q y_accs]; auto.
    + apply aset_nodup, H5.
    + intros pk sd. specialize (H6 pk sd). unfold pos_of in *. cbn [y_accs]. rewrite in_flight_cons in H6.
      unfold in_flight at 1, sumZ in H6. cbn [map fold_right] in H6. rewrite pos_in_aset, Em'.
      destruct (Z.eqb_spec (u_owner u) pk) as [Epk|]; cbn [andb] in H6; [subst pk|lia]. rewrite P0 in H6.
      destruct (Bool.eqb_spec (u_side u) sd) as [<-|E]; [rewrite side_lots_adjust; lia|].
      assert (sd = negb (u_side u)) as -> by (apply neq_negb; congruence). rewrite side_lots_adjust_other. lia.
    + intros pk. specialize (H7 pk). unfold pos_of in *. cbn [y_accs]. rewrite taking_cons in H7. change (taking pk f_qty [EOut u]) with 0 in H7.
      rewrite pos_in_aset. destruct (Z.eqb_spec (u_owner u) pk) as [Epk|]; [subst pk|lia]. rewrite P0 in H7. lia.
    + intros pk. specialize (H8 pk). unfold pos_of in *. cbn [y_accs]. rewrite taking_cons in H8. change (taking pk fquote [EOut u]) with 0 in H8.
      rewrite pos_in_aset. destruct (Z.eqb_spec (u_owner u) pk) as [Epk|]; [subst pk|lia]. rewrite P0 in H8. lia.
    + intros e He. apply H9. right; exact He.
    + rewrite tot_aset by reflexivity. rewrite P0. lia.
    + rewrite tot_aset by reflexivity. rewrite P0. lia.
Qed.

(** ** every instruction *)
Lemma posn_ensure a : posn (ensure_position a) = posn a.
Proof. unfold ensure_position, posn. destruct (a_pos a) eqn:E; [rewrite E|]; reflexivity. Qed.
Lemma ensure_oo a : a_oo (ensure_position a) = a_oo a.
Proof. unfold ensure_position. destruct (a_pos a); reflexivity. Qed.
Lemma inv_step cap capq y Q n x y' : (0 < capq)%nat -> inv cap capq y Q n -> op_wf x -> step y x = Some y' ->
  exists Q' n', inv cap capq y' Q' n'.
Proof.
  intros Hcap HI Hwf. unfold step. destruct x as [pk k|pk|pk k|pk i s|pk o oracle now limit|pk id|pk cid|pk only limit| |pk1 pk2 base q1 q2|pk qt os|pk|pk|lf sf mf tf pe fe aw lw|pk].
  - destruct (aget (y_accs y) pk) eqn:E; [discriminate|]. intros X; injection X as <-. exists Q, n. apply inv_acc; [exact HI|].
    unfold pos_of, pos_in. rewrite E. apply same_core_refl.
  - destruct (aget (y_accs y) pk) as [a|] eqn:E; [|discriminate]. destruct (a_pos a) eqn:Ep; [discriminate|].
    intros X; injection X as <-. exists Q, n.
    assert (E0 : pos_in (y_accs y) pk = pos0) by (unfold pos_in, posn; rewrite E, Ep; reflexivity).
    apply (inv_accs cap capq y); try reflexivity; try exact HI.
    + apply adel_nodup, HI.
    + intros pk'. unfold pos_of, pos_in. rewrite aget_adel. destruct (Z.eqb_spec pk pk') as [<-|]; [|apply same_core_refl].
      unfold pos_in in E0. rewrite E0. apply same_core_refl.
    + rewrite tot_adel; [rewrite E0; cbn; lia|reflexivity|apply HI].
    + rewrite tot_adel; [rewrite E0; cbn; lia|reflexivity|apply HI].
  - destruct (aget (y_accs y) pk) as [a|] eqn:E; [|discriminate]. destruct (resize_slots _ _); [|discriminate].
    intros X; injection X as <-. exists Q, n. apply inv_acc; [exact HI|]. rewrite (pos_of_get _ _ _ E). apply same_core_refl.
  - destruct (aget (y_accs y) pk) as [a|] eqn:E; [|discriminate]. destruct (slot_at _ _); [|discriminate]. destruct (_ || _); [discriminate|].
    intros X; injection X as <-. exists Q, n. apply inv_acc; [exact HI|]. rewrite (pos_of_get _ _ _ E). apply same_core_refl.
  - destruct (aget (y_accs y) pk) as [a|] eqn:E; [|discriminate]. destruct (new_order _ _ _ _ _ _ _ _ _) as [r|] eqn:EN; [|discriminate].
    intros X; injection X as <-. destruct Hwf as [W1 W2].
    destruct (inv_place _ _ _ _ _ _ _ _ _ _ _ _ HI W1 W2 E EN) as (ol & new & n' & _ & HI'). eauto.
  - destruct (aget (y_accs y) pk) as [a|] eqn:E; [|discriminate]. destruct (find_order_id _ _ _) as [i|]; [|discriminate].
    unfold cancel_slot. destruct (cancel_by_slot _ _ _ _ _) as [[[bk' a']|]|] eqn:Ec; try discriminate. intros X; injection X as <-.
    destruct (cancel_by_slot_spec _ _ _ _ _ _ _ _ _ (iv_book _ _ _ _ _ HI) Ec) as [Hc Hb]. exists Q, n.
    eapply inv_cancelled; eauto. apply (pos_of_get _ _ _ E).
  - destruct (aget (y_accs y) pk) as [a|] eqn:E; [|discriminate]. destruct (find_client_order _ _ _) as [i|]; [|discriminate].
    unfold cancel_slot. destruct (cancel_by_slot _ _ _ _ _) as [[[bk' a']|]|] eqn:Ec; try discriminate. intros X; injection X as <-.
    destruct (cancel_by_slot_spec _ _ _ _ _ _ _ _ _ (iv_book _ _ _ _ _ HI) Ec) as [Hc Hb]. exists Q, n.
    eapply inv_cancelled; eauto. apply (pos_of_get _ _ _ E).
  - destruct (aget (y_accs y) pk) as [a|] eqn:E; [|discriminate]. destruct (cancel_all _ _ _ _ _ _ _ _) as [[bk' a']|] eqn:Ec; [|discriminate].
    intros X; injection X as <-. exists Q, n. eapply inv_cancel_all; eauto.
  - intros Hc. destruct (inv_consume _ _ _ _ _ _ Hcap HI Hc) as (e & Q' & _ & HI'). eauto.
  - destruct (Z.eqb_spec pk1 pk2) as [|Hne]; [discriminate|].
    destruct (aget (y_accs y) pk1) as [a|] eqn:Ea; [|discriminate]. destruct (aget (y_accs y) pk2) as [b|] eqn:Eb; [|discriminate].
    destruct (a_pos a) as [p|] eqn:Ep; [|discriminate]. destruct (a_pos b) as [p'|] eqn:Ep'; [|discriminate].
    destruct (record_trade p (y_mk y) base q1) as [p1 mk1] eqn:R1. destruct (record_trade p' mk1 (- base) q2) as [p2 mk2] eqn:R2.
    intros X; injection X as <-. exists Q, n. pose proof HI as [H1 H2 H3 H4 H5 H6 H7 H8 H9 H10 H11].
    apply record_trade_core in R1 as (A1 & A2 & A3 & A4 & A5 & _ & A6). apply record_trade_core in R2 as (B1 & B2 & B3 & B4 & B5 & _ & B6).
    assert (P1 : pos_in (y_accs y) pk1 = p) by (unfold pos_in, posn; rewrite Ea, Ep; reflexivity).
    assert (P2 : pos_in (y_accs y) pk2 = p') by (unfold pos_in, posn; rewrite Eb, Ep'; reflexivity).
    assert (Hne' : (pk1 =? pk2) = false) by (apply Z.eqb_neq, Hne).
    assert (L : forall pk, pos_in (aset (aset (y_accs y) pk1 (set_pos a p1)) pk2 (set_pos b p2)) pk =
       if pk2 =? pk then p2 else if pk1 =? pk then p1 else pos_in (y_accs y) pk) by (intros pk; rewrite !pos_in_aset; reflexivity).
    constructor; cbn [y_mk y_bk y_q y_accs]; auto.
    + rewrite B6, A6. exact H1.
    + rewrite B6, A6. exact H2.
    + rewrite B6, A6. exact H3.
    + apply aset_nodup, aset_nodup, H5.
    + intros pk sd. unfold pos_of. cbn [y_accs]. rewrite L, <- H6. unfold pos_of, side_lots.
      destruct (Z.eqb_spec pk2 pk) as [<-|]; [rewrite P2, B2, B3; reflexivity|].
      destruct (Z.eqb_spec pk1 pk) as [<-|]; [rewrite P1, A2, A3; reflexivity|reflexivity].
    + intros pk. unfold pos_of. cbn [y_accs]. rewrite L, <- H7. unfold pos_of.
      destruct (Z.eqb_spec pk2 pk) as [<-|]; [rewrite P2, B4; reflexivity|].
      destruct (Z.eqb_spec pk1 pk) as [<-|]; [rewrite P1, A4; reflexivity|reflexivity].
    + intros pk. unfold pos_of. cbn [y_accs]. rewrite L, <- H8. unfold pos_of.
      destruct (Z.eqb_spec pk2 pk) as [<-|]; [rewrite P2, B5; reflexivity|].
      destruct (Z.eqb_spec pk1 pk) as [<-|]; [rewrite P1, A5; reflexivity|reflexivity].
    + rewrite !tot_aset by reflexivity. rewrite pos_in_aset, Hne', P1, P2. cbn [posn set_pos a_pos]. lia.
    + rewrite !tot_aset by reflexivity. rewrite pos_in_aset, Hne', P1, P2. cbn [posn set_pos a_pos]. rewrite B6, A6.
      cbn [with_oi mk_open_interest]. rewrite A1, B1. lia.
  - destruct (aget (y_accs y) pk) as [a|] eqn:E; [|discriminate]. destruct (a_pos a) as [p|] eqn:Ep; [|discriminate].
    intros X; injection X as <-. exists Q, n. apply inv_acc; [exact HI|]. rewrite (pos_of_get _ _ _ E). unfold posn. rewrite Ep. cbn. repeat split.
  - destruct (aget (y_accs y) pk) as [a|] eqn:E; [|discriminate]. destruct (a_pos a) as [p|] eqn:Ep; [|discriminate].
    intros X; injection X as <-. exists Q, n. apply inv_acc; [exact HI|]. rewrite (pos_of_get _ _ _ E). unfold posn. rewrite Ep. cbn. repeat split.
  - destruct (aget (y_accs y) pk) as [a|] eqn:E; [|discriminate]. destruct (a_pos a) as [p|] eqn:Ep; [|discriminate].
    cbn [settle_funding p_base p_bids p_asks p_taker_base p_taker_quote].
    match goal with |- (if ?b then _ else _) = _ -> _ => destruct b eqn:Ez2; [|discriminate] end.
    intros X; injection X as <-. exists Q, n. apply inv_acc; [exact HI|]. rewrite (pos_of_get _ _ _ E). unfold posn. rewrite Ep. cbn [a_pos].
    repeat (apply andb_true_iff in Ez2 as [Ez2 ?]). repeat match goal with H : (_ =? _) = true |- _ => apply Z.eqb_eq in H end.
    red. cbn. repeat split; symmetry; assumption.
  - intros X; injection X as <-. exists Q, n. apply (inv_accs cap capq y); try reflexivity; try exact HI; [apply HI|].
    intros pk. apply same_core_refl.
  - destruct (aget (y_accs y) pk) as [a|] eqn:E; [|discriminate]. intros X; injection X as <-. exists Q, n. apply inv_acc; [exact HI|].
    rewrite (pos_of_get _ _ _ E). rewrite posn_ensure. apply same_core_refl.
Qed.

Lemma inv_run cap capq : (0 < capq)%nat -> forall L y Q n y', inv cap capq y Q n -> Forall op_wf L -> run_ops y L = Some y' ->
  exists Q' n', inv cap capq y' Q' n'.
Proof.
  intros Hcap. induction L as [|x L IH]; intros y Q n y' HI HF Hr; cbn [run_ops] in Hr.
  - injection Hr as <-. eauto.
  - inversion HF; subst. destruct (step y x) as [y1|] eqn:E; [|discriminate].
    destruct (inv_step _ _ _ _ _ _ _ Hcap HI H1 E) as (Q1 & n1 & HI1). eapply IH; eauto.
Qed.
Lemma inv_fresh cap capq buf idx bls qls mf tf pe aw lw : length buf = capq -> (0 < capq)%nat -> idx <> FREE ->
  inv cap capq (fresh cap buf idx bls qls mf tf pe aw lw) [] 0.
Proof.
  intros Hb Hc Hi. constructor; cbn [fresh y_mk y_bk y_q y_accs mk_index mk_seq mk_open_interest]; auto; try lia.
  - apply empty_book_ok.
  - unfold qview, qrep. cbn. repeat split; try lia.
  - constructor.
  - intros pk sd. rewrite empty_resting. destruct sd; reflexivity.
  - intros e [].
Qed.
Lemma inv_reached cap capq y : reached cap capq y -> exists Q n, inv cap capq y Q n.
Proof.
  intros (buf & idx & bls & qls & mf & tf & pe & aw & lw & L & Hb & Hc & Hi & HF & Hr).
  eapply inv_run; [exact Hc|apply inv_fresh; eassumption|exact HF|exact Hr].
Qed.
