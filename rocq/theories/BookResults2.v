(** More lemmas behind PropBook.v: effects on the book, fees, self trades. *)
From Coq Require Import List ZArith Lia Bool Arith Permutation Sorted.
From Verif Require Import OrderTree OrderTreeSpec KeyBits OrderTreeRep BookArena BookArenaProofs
  BookArenaFacts Keys Fixed BookSide BookSideSpec BookSideProofs BookSideView BookSideWorst EventQueue PerpTypes Book
  BookLoop BookApply BookPlace BookSpec BookFacts BookResults.
Import ListNotations.
Open Scope Z_scope.

Definition akey (ia : aitem) : Z := l_key (it_leaf (fst ia)).

Lemma outs_app sd k A B : outs sd k (A ++ B) = outs sd k A || outs sd k B.
Proof. apply existsb_app. Qed.
Lemma filled_app k A B : filled_qty k (A ++ B) = filled_qty k A + filled_qty k B.
Proof.
  unfold filled_qty. rewrite fills_app, filter_app, map_app. unfold sumZ. rewrite fold_right_app.
  generalize (fold_right Z.add 0 (map f_qty (filter (fun f => f_maker_id f =? k) (fills B)))). intros z.
  induction (map f_qty (filter (fun f => f_maker_id f =? k) (fills A))) as [|y L IH]; cbn [fold_right]; lia.
Qed.
Lemma filled_out sd now k L : forall seq, filled_qty k (out_events sd now seq L) = 0.
Proof. intros. unfold filled_qty. rewrite fills_out. reflexivity. Qed.
Lemma outs_other sd now k L : forall seq, outs (negb sd) k (out_events sd now seq L) = false.
Proof.
  induction L as [|e L IH]; intros seq; [reflexivity|]. cbn [out_events outs existsb out_of_leaf u_side].
  rewrite eqb_negb2. cbn [andb orb]. apply IH.
Qed.

Lemma act_event_other x ia m k : akey ia <> k ->
  outs (negb (o_side (x_order x))) k (act_event x m ia) = false /\ filled_qty k (act_event x m ia) = 0.
Proof.
  destruct ia as [i ac]. unfold akey; cbn [fst]. intros Hk. apply Z.eqb_neq in Hk.
  destruct ac as [| | |k']; unfold filled_qty;
    cbn [act_event outs existsb out_of_leaf make_fill fills flat_map app filter u_side u_id f_maker_id];
    rewrite ?Hk, ?andb_false_r; cbn; auto.
Qed.
Lemma acts_other x : forall acts m k, ~ In k (map akey acts) ->
  outs (negb (o_side (x_order x))) k (act_events x m acts) = false /\ filled_qty k (act_events x m acts) = 0.
Proof.
  induction acts as [|ia acts IH]; intros m k Hk; [split; reflexivity|]. cbn [map In] in Hk. cbn [act_events].
  rewrite outs_app, filled_app.
  destruct (act_event_other x ia m k) as [-> ->]; [intros E; apply Hk; left; exact E|].
  destruct (IH (m + Z.of_nat (length (act_event x m ia))) k) as [-> ->]; [intros E; apply Hk; right; exact E|]. auto.
Qed.
Lemma acts_own x ia : forall acts m, NoDup (map akey acts) -> In ia acts ->
  outs (negb (o_side (x_order x))) (akey ia) (act_events x m acts) = (match snd ia with ADrop | ACancel => true | _ => false end) /\
  filled_qty (akey ia) (act_events x m acts) = fq ia.
Proof.
  induction acts as [|ib acts IH]; intros m HN Hin; [destruct Hin|]. cbn [map] in HN. inversion HN as [|? ? Hn HN']; subst.
  cbn [act_events]. rewrite outs_app, filled_app. destruct Hin as [->|Hin].
  - destruct (acts_other x acts (m + Z.of_nat (length (act_event x m ia))) _ Hn) as [-> ->].
    rewrite orb_false_r, Z.add_0_r. destruct ia as [i ac]. unfold akey, fq, filled_qty; cbn [fst snd].
    destruct ac as [| | |k'];
      cbn [act_event outs existsb out_of_leaf make_fill fills flat_map app filter u_side u_id f_maker_id];
      rewrite ?Z.eqb_refl, ?eqb_reflx; cbn; split; lia || reflexivity.
  - destruct (act_event_other x ib m (akey ia)) as [-> ->].
    { intros E. apply Hn. rewrite E. apply in_map. exact Hin. }
    apply IH; assumption.
Qed.

Lemma reduce_zero l : reduce_qty l 0 = l.
Proof. unfold reduce_qty. rewrite Z.sub_0_r. destruct l; reflexivity. Qed.

Lemma flat_map_perm {A B} (f : A -> list B) L L' : Permutation L L' -> Permutation (flat_map f L) (flat_map f L').
Proof. apply Permutation_flat_map. Qed.

Lemma key_seqno sd l l' : seqno sd l <> seqno sd l' -> l_key l <> l_key l'.
Proof. intros H E. apply H. apply seqno_key, E. Qed.

Section Call.
Context {cap capq : nat} {bk : orderbook} {o : order} {mk : market} {q : evq} {oracle : fx}
  {a : account} {pk now : Z} {limit : nat} {r : place_result} {ol : Z} {Q new : list event} {n n' : Z}.
Hypothesis H : order_call cap capq bk o mk q oracle a pk now limit r ol Q new n n'.
Local Notation sd := (o_side o).
Local Notation os := (negb (o_side o)).

Lemma call_opposing : Permutation (resting os (r_book r)) (flat_map (residual os new) (resting os bk)).
Proof.
  open_call H.
  assert (Hq : forall e, In e (all bo) -> 0 < l_quantity (snd e)) by (intros e He; apply (proj2 Hoo e He)).
  assert (HN : NoDup (map (fun e : entry => l_key (snd e)) (all bo))).
  { rewrite Eo. destruct (oc_book _ _ _ _ _ _ _ _ _ _ _ _ _ _ _ _ _ H os) as (_ & _ & _ & HN).
    revert HN. generalize (resting os bk). clear. induction l as [|e L IH]; cbn [map]; intros HN; [constructor|].
    inversion HN as [|? ? Hn HN']; subst. constructor; [|apply IH, HN'].
    intros Hin. apply Hn. apply in_map_iff in Hin as (e' & E & He'). apply in_map_iff. exists e'. split; [|exact He'].
    apply seqno_key, E. }
  rewrite <- Eo, <- Eo'. rewrite pl_opp'0.
  rewrite (flat_map_perm (residual os new) _ _ pl_opp0). rewrite map_app, <- app_assoc, flat_map_app.
  assert (HN2 : NoDup (map (fun e : entry => l_key (snd e)) (map entry_of (map fst acts) ++ (map entry_of rest ++ U)))).
  { eapply Permutation_NoDup; [|exact HN]. apply Permutation_map. rewrite pl_opp0, map_app, <- app_assoc. reflexivity. }
  assert (Hq2 : forall e, In e (map entry_of (map fst acts) ++ (map entry_of rest ++ U)) -> 0 < l_quantity (snd e)).
  { intros e He. apply Hq. eapply Permutation_in; [symmetry; exact pl_opp0|]. rewrite map_app, <- app_assoc. exact He. }
  assert (Hkeys : map (fun e : entry => l_key (snd e)) (map entry_of (map fst acts)) = map akey acts) by (rewrite !map_map; reflexivity).
  rewrite map_app, Hkeys in HN2.
  destruct pl_x0 as (Hx1 & _).
  assert (Hres : forall e, In e (map entry_of rest ++ U) -> residual os new e = [e]).
  { intros e He. assert (Hk : ~ In (l_key (snd e)) (map akey acts)).
    { intros Hk. apply (in_map (fun e : entry => l_key (snd e))) in He. revert HN2 Hk He. clear.
      generalize (map (fun e : entry => l_key (snd e)) (map entry_of rest ++ U)) (map akey acts) (l_key (snd e)).
      intros L1 L2 k HN H1 H2. induction L2 as [|y L2 IH]; [destruct H1|]. cbn [app] in HN. inversion HN as [|? ? Hn HN']; subst.
      destruct H1 as [->|H1]; [|auto]. apply Hn. apply in_or_app; right; exact H2. }
    destruct (acts_other x acts n _ Hk) as [Ho Hf]. rewrite Hx1 in Ho.
    unfold residual. rewrite Enew, outs_app, filled_app, filled_out, Ho, Hf.  rewrite outs_other.
    cbn [orb Z.add]. destruct (Z.eqb_spec 0 (l_quantity (snd e))) as [E|_].
    { specialize (Hq2 e ltac:(apply in_or_app; right; exact He)). lia. }
    rewrite reduce_zero. destruct e; reflexivity. }
  apply Permutation_app.
  - assert (HN3 : NoDup (map akey acts)).
    { clear -HN2. induction (map akey acts) as [|y L IH]; [constructor|]. cbn [app] in HN2. inversion HN2; subst.
      constructor; [|auto]. intros Hin. apply H1. apply in_or_app; left; exact Hin. }
    assert (Hall : forall L, incl L acts -> flat_map after_act L = flat_map (residual os new) (map entry_of (map fst L))).
    { induction L as [|ia L IH]; intros Hincl; [reflexivity|]. cbn [map flat_map]. rewrite IH by (intros y Hy; apply Hincl; right; exact Hy).
      f_equal. assert (Hia : In ia acts) by (apply Hincl; left; reflexivity).
      destruct (acts_own x ia acts n HN3 Hia) as [Ho Hf]. rewrite Hx1 in Ho.
      unfold residual. change (l_key (snd (entry_of (fst ia)))) with (akey ia).
      rewrite Enew, outs_app, filled_app, filled_out, Ho, Hf.  rewrite outs_other, orb_false_r, Z.add_0_r.
      assert (Hpos : 0 < qty (fst ia)).
      { apply (Hq2 (entry_of (fst ia))). apply in_or_app; left. apply in_map, in_map. exact Hia. }
      destruct ia as [i ac]. unfold entry_of, fq, qty in *; cbn [fst snd] in *.
      destruct ac as [| | |k]; cbn [after_act]; try reflexivity.
      - destruct (Z.eqb_spec 0 (l_quantity (it_leaf i))); [lia|]. rewrite reduce_zero. reflexivity.
      - unfold qty. destruct (Z.eqb_spec (l_quantity (it_leaf i) - k) 0), (Z.eqb_spec k (l_quantity (it_leaf i))); try lia; reflexivity. }
    rewrite Hall by (intros y Hy; exact Hy). reflexivity.
  - assert (Hall : forall L, incl L (map entry_of rest ++ U) -> flat_map (residual os new) L = L).
    { induction L as [|e L IH]; intros Hincl; [reflexivity|]. cbn [flat_map]. rewrite IH by (intros y Hy; apply Hincl; right; exact Hy).
      rewrite Hres by (apply Hincl; left; reflexivity). reflexivity. }
    rewrite Hall by (intros y Hy; exact Hy). reflexivity.
Qed.

Lemma call_own_side :
  exists removed kept,
    Permutation (resting sd bk) (removed ++ kept) /\
    ((exists e, posted o r e /\ Permutation (resting sd (r_book r)) (e :: kept) /\
        (length removed <= 2)%nat /\
        forall e', In e' removed -> reported_out sd new e' /\
          (expiry (snd e') < now \/ better_price sd (eff_price ol e) (cprice ol e'))) \/
     (r_id r = None /\ removed = [] /\ Permutation (resting sd (r_book r)) kept)).
Proof.
  open_call H. exists removed, R. rewrite <- Es, <- Es'. split; [exact pl_own0|].
  destruct post as [e|].
  - left. assert (Hpost : posted o r e).
    { split; [destruct e; destruct pl_post0 as (_ & _ & Hr & _ & _ & sl & _ & El & _); rewrite Hr; cbn [snd]; rewrite El; reflexivity|].
      rewrite <- Es'. eapply Permutation_in; [symmetry; exact pl_own'0|]. left; reflexivity. }
    exists e. split; [exact Hpost|]. split; [exact pl_own'0|]. split; [apply pl_removed0|].
    intros e' He'.
    destruct (posted_entry H e Hpost) as (ol' & price' & pd' & id' & x' & acts' & rest' & es' & rb' & rq' & d' & lm' & post'' & U' & bo''
     & removed' & R' & bs'' & p2' & bo0 & bs0 & -> & _ & _ & HP' & _ & Ep & _).
    split.
    + assert (Ho : forall L s, In e' L -> exists s', In (out_of_leaf (o_side o) now s' (snd e')) (out_events (o_side o) now s L)).
      { induction L as [|y L IH]; intros s Hin; [destruct Hin|]. destruct Hin as [->|Hin].
        - exists s. left; reflexivity.
        - destruct (IH (s + 1) Hin) as (s' & Hs'). exists s'. right; exact Hs'. }
      destruct (Ho removed (n + Z.of_nat (length (act_events x n acts))) He') as (s' & Hs').
      unfold out_of_leaf in Hs'. eexists. split; [rewrite Enew; apply in_or_app; right; exact Hs'|]. cbn. auto 6.
    + destruct pl_removed0 as (_ & _ & Hrem). destruct (Hrem e' He') as [Hx|Hx]; [left; exact Hx|right].
      assert (price = eff_price ol e) as <-; [|exact Hx]. rewrite Ep.
      assert (Hprice : map fst acts ++ rest = map fst acts' ++ rest').
      { destruct HP'. congruence. }
      destruct HP' as [_ _ _ _ _ _ pr' _ _ _ _ _ _ _ _ _ _ _ _ _ _ _ _]. rewrite <- Hprice in pr'. congruence.
  - right. destruct pl_removed0 as (Hn & _). split; [apply pl_post0|]. split; [apply Hn; reflexivity|]. exact pl_own'0.
Qed.

Definition call_taker_fee : fx :=
  fmul (of_int (mk_qls mk * fill_quote (filter (fun f => negb (f_maker f =? pk)) (fills new)))) (mk_taker_fee mk).
Definition call_maker_fee : fx :=
  fmul (of_int (mk_qls mk * fill_quote (filter (fun f => negb (f_maker f =? pk)) (fills new)))) (mk_maker_fee mk).
Definition call_penalty : fx := if needs_penalty o then mk_penalty mk else 0.

Lemma fmul_zero_l z : fmul (of_int 0) z = 0.
Proof. reflexivity. Qed.

Lemma call_fees :
  exists p p', a_pos a = Some p /\ a_pos (r_acc r) = Some p' /\ 0 <= call_taker_fee /\
  mk_fees_accrued (r_market r) = mk_fees_accrued mk + call_penalty + (call_taker_fee + call_maker_fee) /\
  r_market r = with_fees (with_seq mk (mk_seq mk + 1)) (mk_fees_accrued (r_market r)) /\
  p_quote p' = p_quote p - call_penalty - call_taker_fee /\
  p_base p' = p_base p /\
  p_taker_base p' = p_taker_base p + (if sd then 1 else -1) * fill_base (fills new) /\
  p_taker_quote p' = p_taker_quote p - (if sd then 1 else -1) * fill_quote (fills new) /\
  p_long_settled p' = p_long_settled p /\ p_short_settled p' = p_short_settled p /\
  side_lots os p' = side_lots os p /\
  side_lots sd p' = side_lots sd p + (match r_id r with None => 0 | Some id =>
      sumZ (map (fun e => l_quantity (snd e)) (filter (fun e => l_key (snd e) =? id) (resting sd (r_book r)))) end).
Proof.
  open_call H. destruct pl_x0 as (Hx1 & Hx2 & Hx3 & Hx4 & Hx5 & Hx6 & Hx7).
  assert (Hfills : fills new = fills (act_events x n acts)) by (rewrite Enew, fills_app, fills_out, app_nil_r; reflexivity).
  assert (Et : taker_fees x acts = call_taker_fee).
  { unfold taker_fees, call_taker_fee, fee_quote. rewrite Hfills, <- Hx2, fills_dec, Hx5, Hx7. reflexivity. }
  assert (Em : maker_fees x acts = call_maker_fee).
  { unfold maker_fees, call_maker_fee, fee_quote. rewrite Hfills, <- Hx2, fills_dec, Hx5, Hx6. reflexivity. }
  destruct (run_sums _ _ _ _ _ _ _ _ _ _ pl_run0) as (_ & _ & _ & _ & _ & _).
  assert (Hok : Forall item_ok (map fst acts)).
  { assert (HF : Forall item_ok (map fst acts ++ rest)).
    { rewrite pl_es0. apply Forall_forall. intros i Hi. apply in_map_iff in Hi as (e & <- & He).
      eapply item_of_ok; [exact Hoo|]. eapply Permutation_in; [exact pl_perm0|exact He]. }
    apply Forall_app in HF. apply HF. }
  pose proof (run_dec_le _ _ _ _ _ _ _ _ _ _ pl_run0 Hok) as Hdec.
  assert (Hnotook : took acts = false -> sum_quote acts = 0 /\ sum_base acts = 0 /\ call_taker_fee = 0 /\ call_maker_fee = 0).
  { unfold took. intros Ht. apply orb_false_iff in Ht as [H1 H2]. apply Z.ltb_ge in H1, H2.
    assert (Hs : sum_quote acts = 0) by lia.
    assert (Hb : 0 <= sum_base acts).
    { clear -pl_run0. unfold sum_base. induction pl_run0; cbn [fold_right]; try lia; unfold fq in *; cbn [snd] in *; lia. }
    assert (Hd : sum_quote acts - sum_dec x acts = 0) by lia.
    split; [exact Hs|]. split; [lia|]. rewrite <- Et, <- Em. unfold taker_fees, maker_fees, fee_quote. rewrite Hd, Z.mul_0_r. auto. }
  destruct pl_pos0 as (p0 & Ep0 & Ep2).
  assert (Hacc : exists p', a_pos (r_acc r) = Some p' /\
     p' = match post with None => p2 | Some (c, l) => adjust_maker_lots p2 (o_side o) (l_quantity l) end).
  { destruct post as [[c l]|].
    - destruct pl_post0 as (_ & _ & _ & _ & _ & sl & _ & _ & Hadd). unfold add_perp_order in Hadd. cbn [set_pos a_pos] in Hadd.
      destruct (slot_at _ _); [|discriminate]. injection Hadd as <-. cbn. eauto.
    - destruct pl_post0 as [-> _]. cbn. eauto. }
  destruct Hacc as (p' & Ep' & Edef). exists p0, p'. split; [exact Ep0|]. split; [exact Ep'|].
  assert (Htf : 0 <= call_taker_fee).
  { destruct (took acts) eqn:Et0; [rewrite <- Et; apply pl_tf0; reflexivity|]. destruct (Hnotook eq_refl) as (_ & _ & -> & _). lia. }
  split; [exact Htf|].
  assert (Hfee : mk_fees_accrued (r_market r) = mk_fees_accrued mk + call_penalty + (call_taker_fee + call_maker_fee)).
  { rewrite pl_market0. cbn [with_fees mk_fees_accrued]. rewrite Et, Em. change (penalty_of o mk) with call_penalty.
    destruct (took acts); [reflexivity|]. destruct (Hnotook eq_refl) as (_ & _ & -> & ->). lia. }
  split; [exact Hfee|]. split; [rewrite pl_market0; reflexivity|].
  destruct (fills_base x acts n) as (Efb & Efq & _). rewrite <- Hfills in Efb, Efq.
  assert (Hlots : match r_id r with None => 0 | Some id =>
      sumZ (map (fun e => l_quantity (snd e)) (filter (fun e => l_key (snd e) =? id) (resting sd (r_book r)))) end =
      match post with None => 0 | Some (c, l) => l_quantity l end).
  { destruct post as [[c l]|].
    - destruct pl_post0 as (_ & _ & -> & _ & _ & sl & _ & El & _). rewrite <- Es'.
      assert (Hn : forall e, In e R -> l_key (snd e) =? id = false).
      { intros e He. apply Z.eqb_neq. intros E.
        assert (Hin2 : In e (all bs)). { eapply Permutation_in; [symmetry; exact pl_own0|]. apply in_or_app; right; exact He. }
        destruct Hos as [_ Hos]. destruct (Hos e Hin2) as [_ Hsn]. destruct pl_id0 as [Eid Hsq].
        assert (Hs : in_u64 (mk_seq mk + 1)).
        { unfold in_u64. pose proof (oc_seq _ _ _ _ _ _ _ _ _ _ _ _ _ _ _ _ _ H). lia. }
        pose proof (seqno_new (o_side o) pd (mk_seq mk + 1) Hs) as Hn.
        rewrite (seqno_key _ (snd e) (mkLeaf 0 0 0 id 0 0 0 0 0)) in Hsn by exact E. rewrite Eid in Hsn. lia. }
      assert (HPf : forall (A B : list entry), Permutation A B -> sumZ (map (fun e => l_quantity (snd e)) (filter (fun e => l_key (snd e) =? id) A)) =
        sumZ (map (fun e => l_quantity (snd e)) (filter (fun e => l_key (snd e) =? id) B))).
      { clear. unfold sumZ. intros A B HAB. induction HAB as [|z A B _ IH|y z A|A B C _ IH1 _ IH2]; cbn [filter map fold_right].
        - reflexivity.
        - destruct (l_key (snd z) =? id); cbn [map fold_right]; rewrite IH; reflexivity.
        - destruct (l_key (snd z) =? id), (l_key (snd y) =? id); cbn [map fold_right]; lia.
        - rewrite IH1. exact IH2. }
      rewrite (HPf _ _ pl_own'0). cbn [app filter snd].
      assert (l_key l =? id = true) as -> by (rewrite El; apply Z.eqb_refl).
      cbv beta iota zeta.
      match goal with |- context [filter ?f R] => assert (filter f R = []) as -> end.
      { clear -Hn. induction R as [|e R IH]; [reflexivity|]. cbn [filter]. rewrite (Hn e) by (left; reflexivity).
        apply IH. intros y Hy. apply Hn. right; exact Hy. }
      cbn. lia.
    - destruct pl_post0 as [_ ->]. reflexivity. }
  rewrite Hlots.
  assert (Hp : p_quote p2 = p_quote p0 - call_penalty - call_taker_fee /\ p_base p2 = p_base p0 /\
    p_taker_base p2 = p_taker_base p0 + (if sd then 1 else -1) * fill_base (fills new) /\
    p_taker_quote p2 = p_taker_quote p0 - (if sd then 1 else -1) * fill_quote (fills new) /\
    p_bids p2 = p_bids p0 /\ p_asks p2 = p_asks p0 /\ p_long_settled p2 = p_long_settled p0 /\ p_short_settled p2 = p_short_settled p0).
  { rewrite Efb, Efq, Ep2. cbv zeta. rewrite Et. unfold call_penalty.
    destruct (took acts) eqn:Et0.
    - generalize call_taker_fee (sum_base acts) (sum_quote acts). intros tf sb sq. unfold record_trading_fee, add_taker_trade.
      destruct (o_side o), (needs_penalty o);
        cbn [p_quote p_base p_taker_base p_taker_quote p_bids p_asks p_long_settled p_short_settled]; repeat split; lia.
    - destruct (Hnotook eq_refl) as (-> & -> & -> & _). unfold record_trading_fee, add_taker_trade.
      destruct (o_side o), (needs_penalty o);
        cbn [p_quote p_base p_taker_base p_taker_quote p_bids p_asks p_long_settled p_short_settled]; repeat split; lia. }
  destruct Hp as (P1 & P2 & P3 & P4 & P5 & P6 & P7 & P8).
  unfold side_lots in *. subst p'. destruct post as [[c l]|];
    unfold adjust_maker_lots; destruct (o_side o);
    cbn [negb p_quote p_base p_taker_base p_taker_quote p_bids p_asks p_long_settled p_short_settled]; repeat split; lia.
Qed.

(** self trades *)
Lemma call_self f : In f (fills new) -> f_maker f = pk ->
  o_stb o = DecrementTake /\ f_maker_fee f = 0 /\ f_taker_fee f = 0.
Proof.
  open_call H. subst new. rewrite fills_app, fills_out, app_nil_r. intros Hf Hpk.
  apply in_split in Hf as (F1 & F2 & Hf).
  destruct (fills_acts_split _ _ _ _ _ _ Hf) as (A1 & i & k & A2 & m & m' & Ea & _ & -> & _).
  assert (Hi : In (i, AFill k) acts) by (rewrite Ea; apply in_or_app; right; left; reflexivity).
  pose proof (run_in _ _ _ _ _ _ _ _ _ _ pl_run0 _ _ Hi) as (_ & _ & _ & _ & Hst).
  destruct pl_x0 as (Hx1 & Hx2 & _).
  change (f_maker (mkf x m i k)) with (l_owner (it_leaf i)) in Hpk.
  assert (Hown : own x i = true) by (unfold own; apply Z.eqb_eq; congruence).
  rewrite Hx1 in Hst. split; [apply Hst, Hown|].
  change (f_maker_fee (mkf x m i k)) with (f32_round (if own x i then 0 else mk_maker_fee (x_market x))).
  change (f_taker_fee (mkf x m i k)) with (f32_round (if own x i then 0 else mk_taker_fee (x_market x))).
  rewrite Hown. split; reflexivity.
Qed.

(** the first live opposing order, if it is the taker's own and crossing, is treated
    according to the self-trade behaviour *)
Lemma call_first_own e : In e (resting os bk) -> live os now ol e ->
  (forall e', In e' (resting os bk) -> live os now ol e' -> e' = e \/ before os ol e e') ->
  l_owner (snd e) = pk -> is_post_only o = false -> (0 < limit)%nat -> 0 < o_max_base o -> eff_price ol e <= o_max_quote o ->
  (forall p, requested_price o ol = Some p -> crosses sd p (eff_price ol e)) ->
  match o_stb o with
  | AbortTransaction => False
  | CancelProvide => reported_out os new e
  | DecrementTake => exists f, In f (fills new) /\ made_with ol f e
  end.
Proof.
  intros He Hlive Hbest Hown Hnpo Hlim Hmb Hmq Hcross. open_call H.
  destruct (order_price_ok _ _ _ _ _ pl_price0 (oc_order _ _ _ _ _ _ _ _ _ _ _ _ _ _ _ _ _ H) (proj2 pl_ol0))
      as (Hp1 & _ & _ & _ & Hmk).
  destruct pl_x0 as (Hx1 & Hx2 & Hx3 & Hx4 & _).
  assert (Hval : item_valid (item_of os now ol e) = true) by (apply item_valid_iff; apply Hlive).
  assert (Hine : In e (entries ol (fst bo) (snd bo))) by (eapply live_entries; [exact Hlive|rewrite Eo; exact He]).
  assert (Hok : item_ok (item_of os now ol e)) by (eapply item_of_ok; [exact Hoo|exact Hine]).
  destruct Hok as [Hpe Hqe].
  assert (Hpe2 : eff_price ol e <= i64_max).
  { pose proof (oc_order _ _ _ _ _ _ _ _ _ _ _ _ _ _ _ _ _ H) as (_ & Hq & _). lia. }
  assert (Hin : In (item_of os now ol e) (map fst acts ++ rest)).
  { rewrite pl_es0. apply in_map. eapply Permutation_in; [symmetry; exact pl_perm0|exact Hine]. }
  (* price used for matching *)
  assert (Hw : is_price_within_limit (o_side o) (it_price (item_of os now ol e)) price = true).
  { apply within_iff. change (it_price (item_of os now ol e)) with (eff_price ol e).
    assert (Hpr : o_params o = PMarket \/ requested_price o ol = Some price).
    { unfold order_price in pl_price0. unfold is_post_only in Hnpo. unfold requested_price.
      destruct (o_params o) as [|p|p ty|off ty pl]; [left; reflexivity| | |]; right.
      - destruct (fixed_price_data p); [|discriminate]. destruct (1 <=? p); [|discriminate]. congruence.
      - destruct ty; try discriminate. cbn [price_for_order_type] in pl_price0.
        destruct (fixed_price_data p); [|discriminate]. destruct (1 <=? p); [|discriminate]. congruence.
      - destruct ty; try discriminate. cbn [price_for_order_type] in pl_price0.
        destruct (chk_i64 (ol + off)) as [p|] eqn:Ec; [|discriminate]. apply chk_i64_some in Ec as [-> _].
        destruct (chk_i64 (ol + off - ol)); [|discriminate]. destruct (1 <=? ol + off); [|discriminate]. congruence. }
    destruct Hpr as [Hpr|Hpr]; [|apply Hcross, Hpr].
    specialize (Hmk Hpr). change (it_price (item_of os now ol e)) with (eff_price ol e) in Hpe.
    unfold crosses. destruct (o_side o); lia. }
  (* everything in front of e is invalid *)
  assert (Hfirst : forall e', In (item_of os now ol e') (map fst acts ++ rest) -> item_valid (item_of os now ol e') = true ->
     e' = e \/ before os ol e e').
  { intros e' Hi' Hv'. rewrite pl_es0 in Hi'. apply in_map_iff in Hi' as (e2 & E2 & Hi2).
    assert (e2 = e') as ->.
    { assert (Ee : entry_of (item_of os now ol e2) = entry_of (item_of os now ol e')) by (rewrite E2; reflexivity).
      destruct e2, e'; exact Ee. }
    eapply Permutation_in in Hi2; [|exact pl_perm0]. apply Hbest.
    - rewrite <- Eo. eapply Permutation_in; [symmetry; apply (entries_all ol)|]. apply in_or_app; left; exact Hi2.
    - split; [apply item_valid_iff, Hv'|]. intros Hp. unfold entries in Hi2. apply in_app_or in Hi2 as [Hi2|Hi2];
        apply in_map_iff in Hi2 as (l & <- & Hl); [discriminate|]. apply filter_In in Hl. apply Hl. }
  assert (Hitem : forall i, In i (map fst acts ++ rest) -> exists e', i = item_of os now ol e').
  { intros i Hi. rewrite pl_es0 in Hi. apply in_map_iff in Hi as (e' & <- & _). eauto. }
  assert (Hent : map entry_of (map fst acts ++ rest) = es).
  { rewrite pl_es0, map_map. erewrite map_ext; [apply map_id|]. intros [c l]; reflexivity. }
  assert (Hsort : StronglySorted (fun i j => before os ol (entry_of i) (entry_of j)) (map fst acts ++ rest)).
  { apply ssorted_map. rewrite Hent. exact pl_sorted0. }
  (* the loop state when e is reached *)
  assert (Hpre : forall A, (forall i ac, In (i, ac) A -> item_valid i = false) -> forall rb rq d lm rb' rq' d' lm',
     run x rb rq d lm A rb' rq' d' lm' -> rb' = rb /\ rq' = rq /\ lm' = lm).
  { clear. induction A as [|[i ac] A IH]; intros Hinv rb rq d lm rb' rq' d' lm' HR.
    - inversion HR; subst. auto.
    - assert (Hi : item_valid i = false) by (apply (Hinv i ac); left; reflexivity).
      inversion HR; subst; try congruence;
        (eapply IH; [intros j b Hj; apply (Hinv j b); right; exact Hj|eassumption]). }
  assert (Hpreinv : forall A B, map fst acts ++ rest = A ++ item_of os now ol e :: B -> forall i, In i A -> item_valid i = false).
  { intros A B E i Hi. destruct (item_valid i) eqn:Ev; [|reflexivity]. exfalso.
    assert (Hi2 : In i (map fst acts ++ rest)) by (rewrite E; apply in_or_app; left; exact Hi).
    destruct (Hitem i Hi2) as (e' & ->). rewrite E in Hsort. destruct (ssorted_app_inv _ _ _ Hsort) as (_ & _ & Hb).
    specialize (Hb (item_of os now ol e') (item_of os now ol e) Hi ltac:(left; reflexivity)).
    assert (Hbb : before os ol e' e) by (destruct e', e; exact Hb).
    destruct (Hfirst e' Hi2 Ev) as [->|Hb2]; [exact (before_irr _ _ _ _ Hbb Hbb)|exact (before_irr _ _ _ _ Hbb Hb2)]. }
  apply in_app_or in Hin as [Hin|Hin].
  - apply in_map_iff in Hin as ([i ac] & Ei & Hi). cbn [fst] in Ei. subst i.
    pose proof (run_in _ _ _ _ _ _ _ _ _ _ pl_run0 _ _ Hi) as Hr. rewrite Hx1 in Hr.
    destruct ac as [| | |k]; [congruence|congruence| |].
    + destruct Hr as (_ & _ & -> & _).
      assert (Hout : forall acts m, In (item_of os now ol e, ACancel) acts ->
        exists s, In (out_of_leaf os now s (snd e)) (act_events x m acts)).
      { clear -Hx1 Hx3. induction acts as [|[j b] acts IH]; intros m Hm; [destruct Hm|destruct Hm as [E|Hj]].
        - injection E as -> ->. exists m. cbn [act_events act_event app]. left. rewrite Hx1, Hx3. reflexivity.
        - destruct (IH (m + Z.of_nat (length (act_event x m (j, b)))) Hj) as (s & Hs). exists s.
          cbn [act_events]. apply in_or_app; right; exact Hs. }
      destruct (Hout acts n Hi) as (s & Hs). unfold out_of_leaf in Hs.
      eexists. split; [rewrite Enew; apply in_or_app; left; exact Hs|]. cbn. auto 6.
    + destruct Hr as (_ & Hk & _ & _ & Hst). rewrite Hst.
      2:{ unfold own. rewrite Hx2. unfold item_of; cbn [it_leaf]. apply Z.eqb_eq. congruence. }
      apply in_split in Hi as (A1 & A2 & EA).
      assert (Hff : exists s, In (mkf x s (item_of os now ol e) k) (fills (act_events x n acts))).
      { rewrite EA. clear. revert n. induction A1 as [|b A1 IH]; intros m; cbn [app act_events].
        - exists m. cbn [act_event]. rewrite mkf_eq. rewrite fills_app. left. reflexivity.
        - destruct (IH (m + Z.of_nat (length (act_event x m b)))) as (s & Hs). exists s. rewrite fills_app.
          apply in_or_app; right; exact Hs. }
      destruct Hff as (s & Hs). exists (mkf x s (item_of os now ol e) k). split.
      * rewrite Enew, fills_app. apply in_or_app; left; exact Hs.
      * apply mkf_made, Hk.
  - exfalso. apply in_split in Hin as (B1 & B2 & EB).
    assert (Hinv : forall i, In i (map fst acts ++ B1) -> item_valid i = false).
    { apply (Hpreinv (map fst acts ++ B1) B2). rewrite EB, app_assoc. reflexivity. }
    destruct (Hpre acts) with (1 := fun i ac (Hi : In (i, ac) acts) => Hinv i (in_or_app _ _ _ (or_introl (in_map fst _ _ Hi))))
      (2 := pl_run0) as (-> & -> & ->).
    assert (Hrq : 0 < o_max_quote o) by (change (it_price (item_of os now ol e)) with (eff_price ol e) in Hpe; lia).
    assert (Hhead : forall i rest', rest = i :: rest' -> item_valid i = true -> i = item_of os now ol e).
    { intros i rest' Er Hv. rewrite EB in Er. destruct B1 as [|b B1]; cbn [app] in Er; injection Er as -> _; [reflexivity|].
      rewrite Hinv in Hv; [discriminate|]. apply in_or_app; right; left; reflexivity. }
    destruct pl_stop0 as [[_ Hst]|(_ & _ & _ & i & rest' & Er & Hv & Hw2 & Hc)].
    + destruct Hst as [->|(i & rest' & Er & Hc)]; [destruct B1; discriminate|].
      destruct Hc as [Hc|[Hc|(Hv & Hc)]]; [lia|lia|]. rewrite (Hhead i rest' Er Hv), Hx1, Hx4 in Hc.
      destruct Hc as [Hc|(_ & _ & Hc)]; [congruence|].
      change (it_price (item_of os now ol e)) with (eff_price ol e) in Hc. lia.
    + rewrite Hx1 in Hc. destruct Hc as [Hc|Hc]; [congruence|lia].
Qed.

(** the account *)
Lemma call_slots :
  match r_id r with
  | None => a_oo (r_acc r) = a_oo a
  | Some id => exists e i s, posted o r e /\ slot_at a i = Some s /\ s_market s = FREE /\
      0 < l_quantity (snd e) /\ l_owner (snd e) = pk /\ l_owner_slot (snd e) = i /\
      l_client_id (snd e) = o_client o /\ l_tif (snd e) = o_tif o /\ l_timestamp (snd e) = now /\
      seqno sd (snd e) = mk_seq mk + 1 /\
      Some (fst e) = post_target o /\
      a_oo (r_acc r) = upd (a_oo a) (Z.to_nat i) (mkSlot (mk_index mk) sd (fst e) id (o_client o) (l_quantity (snd e)))
  end.
Proof.
  open_call H. destruct post as [[c l]|].
  - destruct pl_post0 as (Hpt & _ & Hr & Hq & _ & sl & Hsl & El & Hadd). rewrite Hr.
    exists (c, l), sl. unfold next_order_slot in Hsl.
    destruct (position_of _ (a_oo a)) as [k|] eqn:Ek; [|discriminate]. cbn [option_map] in Hsl. injection Hsl as <-.
    assert (Hk : exists s, nth_error (a_oo a) k = Some s /\ s_market s = FREE).
    { clear -Ek. revert k Ek. induction (a_oo a) as [|s L IH]; intros k Ek; [discriminate|]. cbn [position_of] in Ek.
      destruct (Z.eqb_spec (s_market s) FREE) as [E|E].
      - injection Ek as <-. exists s. auto.
      - destruct (position_of _ L) as [k'|]; [|discriminate]. injection Ek as <-. cbn [nth_error]. apply IH. reflexivity. }
    destruct Hk as (s & Hs & Hf). exists s.
    assert (Hpost : posted o r (c, l)).
    { split; [rewrite Hr; cbn [snd]; rewrite El; reflexivity|].
      rewrite <- Es'. eapply Permutation_in; [symmetry; exact pl_own'0|]. left; reflexivity. }
    split; [exact Hpost|]. unfold slot_at. destruct (Z.ltb_spec (Z.of_nat k) 0); [lia|]. rewrite Nat2Z.id.
    split; [exact Hs|]. split; [exact Hf|]. cbn [snd fst].
    split; [exact Hq|].
    assert (Hfld : l_owner l = pk /\ l_owner_slot l = Z.of_nat k /\ l_client_id l = o_client o /\ l_tif l = o_tif o /\
      l_timestamp l = now /\ l_key l = id) by (rewrite El; cbn; auto 6).
    destruct Hfld as (F1 & F2 & F3 & F4 & F5 & F6). rewrite F1, F2, F3, F4, F5.
    repeat (split; [reflexivity|]).
    split.
    { destruct pl_id0 as [Eid Hsq].
      assert (Hs2 : in_u64 (mk_seq mk + 1)).
      { unfold in_u64. pose proof (oc_seq _ _ _ _ _ _ _ _ _ _ _ _ _ _ _ _ _ H). lia. }
      rewrite <- (seqno_new sd pd (mk_seq mk + 1) Hs2). apply seqno_key. rewrite F6. exact Eid. }
    split; [symmetry; exact Hpt|].
    unfold add_perp_order in Hadd. cbn [set_pos a_pos] in Hadd. destruct (slot_at _ _); [|discriminate].
    injection Hadd as <-. cbn [set_slot set_pos a_oo a_pos]. rewrite F2, F3, F6, Nat2Z.id. reflexivity.
  - destruct pl_post0 as [-> ->]. reflexivity.
Qed.

(** posting and order types *)
Lemma call_no_target : post_target o = None -> r_id r = None.
Proof.
  open_call H. intros Hn. destruct post as [[c l]|]; [destruct pl_post0; congruence|]. apply pl_post0.
Qed.

Lemma call_new_exists : exists new n', qview capq (r_q r) (Q ++ new) n'.
Proof. exists new, n'. apply H. Qed.
End Call.
