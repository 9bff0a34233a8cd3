(** Lemmas behind PropBook.v *)
From Coq Require Import List ZArith Lia Bool Arith Permutation Sorted.
From Verif Require Import OrderTree OrderTreeSpec KeyBits OrderTreeRep BookArena BookArenaProofs
  BookArenaFacts Keys Fixed BookSide BookSideSpec BookSideProofs BookSideView BookSideWorst EventQueue PerpTypes Book
  BookLoop BookApply BookPlace BookSpec BookFacts.
Import ListNotations.
Open Scope Z_scope.

Ltac open_call H :=
  let HP := fresh "HP" in
  destruct (oc_placed _ _ _ _ _ _ _ _ _ _ _ _ _ _ _ _ _ H)
    as (bo & bs & price & pd & id & x & acts & rest & es & rb & rq & d & lm & post' & U & bo' & removed & R & bs' & p2 & post
        & HP & Eo & Es & Eo' & Es' & Enew & Hoo & Hos);
  destruct HP as [pl_ol0 pl_items0 pl_es0 pl_perm0 pl_sorted0 pl_U0 pl_price0 pl_id0 pl_x0 pl_run0 pl_stop0 pl_opp0 pl_opp_view0 pl_opp'0 pl_own_view0 pl_own0 pl_own'0 pl_removed0 pl_q0 pl_market0 pl_tf0 pl_pos0 pl_post0].

Lemma mkf_made x s sd now ol e k : 0 < k <= qty (item_of sd now ol e) ->
  made_with ol (mkf x s (item_of sd now ol e) k) e.
Proof.
  intros Hk. unfold made_with, mkf, make_fill, qty, item_of in *.
  cbn [it_leaf it_price f_maker f_maker_id f_maker_slot f_price f_qty f_maker_out] in *.
  repeat (split; [reflexivity|]). split; [exact Hk|]. rewrite Z.eqb_eq. lia.
Qed.

Section Call.
Context {cap capq : nat} {bk : orderbook} {o : order} {mk : market} {q : evq} {oracle : fx}
  {a : account} {pk now : Z} {limit : nat} {r : place_result} {ol : Z} {Q new : list event} {n n' : Z}.
Hypothesis H : order_call cap capq bk o mk q oracle a pk now limit r ol Q new n n'.
Let sd := o_side o.
Let os := negb (o_side o).

Lemma call_limits :
  fill_base (fills new) <= o_max_base o /\ fill_quote (fills new) <= o_max_quote o /\
  (length (fills new) <= limit)%nat.
Proof.
  open_call H. subst new. rewrite fills_app, fills_out, app_nil_r.
  destruct (fills_base x acts n) as (-> & -> & ->).
  destruct (run_sums _ _ _ _ _ _ _ _ _ _ pl_run0) as (H1 & H2 & H3 & H4 & H5 & H6).
  destruct H as [_ (Hb & Hq & _) _ _ _ _ _ _]. lia.
Qed.

(** items of the run are items of resting orders *)
Lemma act_entry b (bov : view os cap (bk_get os bk) b) es (acts : list aitem) rest :
  map fst acts ++ rest = map (item_of os now ol) es -> Permutation es (entries ol (fst b) (snd b)) ->
  forall i ac, In (i, ac) acts -> exists e, i = item_of os now ol e /\ In e (all b) /\ In e es /\ entry_of i = e.
Proof.
  intros E HP i ac Hi. assert (Hin : In i (map (item_of os now ol) es)).
  { rewrite <- E. apply in_or_app; left. apply (in_map fst) in Hi. exact Hi. }
  apply in_map_iff in Hin as (e & <- & He). exists e. split; [reflexivity|]. split.
  - eapply Permutation_in; [symmetry; apply (entries_all ol)|]. apply in_or_app; left. eapply Permutation_in; eassumption.
  - split; [exact He|]. destruct e; reflexivity.
Qed.

Lemma call_fill_prices :
  forall f, In f (fills new) ->
    f_taker f = pk /\ f_taker_side f = sd /\
    (exists e, In e (resting os bk) /\ live os now ol e /\ made_with ol f e) /\
    (forall p, requested_price o ol = Some p -> no_worse sd (f_price f) p).
Proof.
  open_call H. subst new. rewrite fills_app, fills_out, app_nil_r. intros f Hf.
  apply in_split in Hf as (F1 & F2 & Hf).
  destruct (fills_acts_split _ _ _ _ _ _ Hf) as (A1 & i & k & A2 & m & m' & Ea & _ & -> & _).
  assert (Hi : In (i, AFill k) acts) by (rewrite Ea; apply in_or_app; right; left; reflexivity).
  pose proof (run_in _ _ _ _ _ _ _ _ _ _ pl_run0 _ _ Hi) as (Hv & Hk & Hpo & Hw & Hst).
  destruct pl_x0 as (Hx1 & Hx2 & Hx3 & Hx4 & _).
  rewrite Hx1, Hx4 in Hw.
  assert (Hin : In i (map (item_of os now ol) es)).
  { unfold os. rewrite <- pl_es0. apply in_or_app; left. apply (in_map fst) in Hi. exact Hi. }
  apply in_map_iff in Hin as (e & <- & He).
  assert (Hen : In e (entries ol (fst bo) (snd bo))) by (eapply Permutation_in; eassumption).
  assert (He2 : In e (resting os bk)).
  { unfold os. rewrite <- Eo. eapply Permutation_in; [symmetry; apply (entries_all ol)|]. apply in_or_app; left. exact Hen. }
  split; [cbn; exact Hx2|]. split; [cbn; rewrite Hx1; reflexivity|]. split.
  - exists e. split; [exact He2|]. split.
    { split; [apply item_valid_iff; exact Hv|]. intros Hp. unfold entries in Hen. apply in_app_or in Hen as [Hen|Hen];
        apply in_map_iff in Hen as (l & <- & Hl); [discriminate|]. apply filter_In in Hl. apply Hl. }
    apply mkf_made, Hk.
  - intros p Hp. destruct (order_price_ok _ _ _ _ _ pl_price0 (oc_order _ _ _ _ _ _ _ _ _ _ _ _ _ _ _ _ _ H) (proj2 pl_ol0))
      as (_ & _ & _ & Hreq & _). specialize (Hreq p Hp). apply within_iff in Hw.
    change (f_price (mkf x m (item_of os now ol e) k)) with (it_price (item_of os now ol e)).
    generalize dependent (it_price (item_of os now ol e)). intros z Hz.
    unfold no_worse, crosses in *. unfold sd. destruct (o_side o); lia.
Qed.

Lemma call_priority :
  exists makers, Forall2 (made_with ol) (fills new) makers /\
    (forall e, In e makers -> In e (resting os bk)) /\
    StronglySorted (before os ol) makers /\
    (forall e e', In e makers -> In e' (resting os bk) -> live os now ol e' -> before os ol e' e ->
       In e' makers \/
       (o_stb o = CancelProvide /\ l_owner (snd e') = pk /\ reported_out os new e')).
Proof.
  open_call H.
  set (makers := map (fun ia => entry_of (fst ia)) (filter is_fill acts)).
  assert (Hes : map entry_of (map fst acts ++ rest) = es).
  { rewrite pl_es0, map_map. erewrite map_ext; [apply map_id|]. intros [c l]; reflexivity. }
  rewrite map_app in Hes. rewrite <- Hes in pl_sorted0.
  destruct (ssorted_app_inv _ _ _ pl_sorted0) as (Hs1 & _ & Hs2). rewrite map_map in Hs1, Hs2.
  assert (HinA : forall e, In e makers -> exists i k, In (i, AFill k) acts /\ e = entry_of i).
  { intros e He. apply in_map_iff in He as ([i ac] & <- & Hi). apply filter_In in Hi as [Hi Hf].
    destruct ac; try discriminate. eexists _, _. split; [exact Hi|reflexivity]. }
  assert (Hact : forall i ac, In (i, ac) acts -> exists e, i = item_of os now ol e /\ In e (all bo) /\ entry_of i = e).
  { intros i ac Hi. assert (Hin : In i (map (item_of os now ol) es)).
    { unfold os. rewrite <- pl_es0. apply in_or_app; left. apply (in_map fst) in Hi. exact Hi. }
    apply in_map_iff in Hin as (e & <- & He). exists e. split; [reflexivity|]. split; [|destruct e; reflexivity].
    eapply Permutation_in; [symmetry; apply (entries_all ol)|]. apply in_or_app; left. eapply Permutation_in; eassumption. }
  exists makers. split; [|split; [|split]].
  - subst new. rewrite fills_app, fills_out, app_nil_r. unfold makers.
    assert (HF : forall fs L, Forall2 (fills_with x) fs L -> incl L acts ->
       Forall2 (made_with ol) fs (map (fun ia => entry_of (fst ia)) L)).
    { induction 1 as [|f [i ac] fs L (k & s & E1 & E2) _ IH]; intros Hincl; cbn [map]; constructor.
      - cbn [fst snd] in *. subst ac f. assert (Hi : In (i, AFill k) acts) by (apply Hincl; left; reflexivity).
        destruct (Hact _ _ Hi) as (e & -> & _ & ->).
        pose proof (run_in _ _ _ _ _ _ _ _ _ _ pl_run0 _ _ Hi) as (_ & Hk & _).
        apply mkf_made, Hk.
      - apply IH. intros y Hy. apply Hincl. right; exact Hy. }
    apply HF; [apply fills_acts|]. intros y Hy. apply filter_In in Hy. apply Hy.
  - intros e He. destruct (HinA e He) as (i & k & Hi & ->). destruct (Hact _ _ Hi) as (e & _ & He' & ->).
    unfold os. rewrite <- Eo. exact He'.
  - unfold makers. apply (ssorted_map (fun ia : aitem => entry_of (fst ia)) (before os ol)). apply ssorted_filter.
    apply (ssorted_map (fun ia : aitem => entry_of (fst ia)) (before os ol)). exact Hs1.
  - intros e e' He He' Hlive Hb. destruct (HinA e He) as (i & k & Hi & ->).
    assert (Hin' : In e' (map (fun y => entry_of (fst y)) acts)).
    { unfold os in He'. rewrite <- Eo in He'. pose proof (live_entries _ _ _ _ _ Hlive He') as Hen.
      eapply Permutation_in in Hen; [|symmetry; exact pl_perm0]. rewrite <- Hes in Hen.
      apply in_app_or in Hen as [Hen|Hen]; [rewrite map_map in Hen; exact Hen|].
      exfalso. apply (before_irr os ol e' (entry_of i) Hb). apply Hs2; [|exact Hen].
      apply in_map_iff. exists (i, AFill k). auto. }
    apply in_map_iff in Hin' as ([i' ac'] & <- & Hi'). cbn [fst] in *.
    destruct (Hact _ _ Hi') as (e0 & -> & _ & E0). rewrite E0 in *.
    pose proof (run_in _ _ _ _ _ _ _ _ _ _ pl_run0 _ _ Hi') as Hr.
    assert (Hval : item_valid (item_of os now ol e0) = true) by (apply item_valid_iff; apply Hlive).
    destruct pl_x0 as (Hx1 & Hx2 & Hx3 & Hx4 & _).
    destruct ac' as [| | |k'].
    + rewrite Hr in Hval; discriminate.
    + rewrite Hr in Hval; discriminate.
    + right. destruct Hr as (_ & Hown & Hst & _). rewrite Hx1 in Hst. split; [exact Hst|].
      unfold own in Hown. apply Z.eqb_eq in Hown. rewrite Hx2 in Hown. unfold item_of in Hown. cbn [it_leaf] in Hown.
      split; [congruence|]. subst new.
      assert (Hout : forall acts m, In (item_of os now ol e0, ACancel) acts ->
        exists s, In (out_of_leaf os now s (snd e0)) (act_events x m acts)).
      { clear -Hx1 Hx3. induction acts as [|[j b] acts IH]; intros m Hm; [destruct Hm|destruct Hm as [E|Hj]].
        - injection E as -> ->. exists m. cbn [act_events act_event app]. left. rewrite Hx1, Hx3. reflexivity.
        - destruct (IH (m + Z.of_nat (length (act_event x m (j, b)))) Hj) as (s & Hs). exists s.
          cbn [act_events]. apply in_or_app; right; exact Hs. }
      destruct (Hout acts n Hi') as (s & Hs). unfold out_of_leaf in Hs.
      eexists. split; [apply in_or_app; left; exact Hs|]. cbn. auto 6.
    + left. unfold makers. apply in_map_iff. exists (item_of os now ol e0, AFill k'). split; [exact E0|].
      apply filter_In. split; [exact Hi'|reflexivity].
Qed.

Lemma call_partial F1 f F2 : fills new = F1 ++ f :: F2 -> f_maker_out f = false -> F2 <> [] ->
  o_max_quote o - fill_quote (F1 ++ [f]) < f_price f.
Proof.
  open_call H. subst new. rewrite fills_app, fills_out, app_nil_r. intros Hf Hout HF2.
  destruct (fills_acts_split _ _ _ _ _ _ Hf) as (A1 & i & k & A2 & m & m' & Ea & E1 & Ef & E2).
  rewrite Ea in pl_run0. destruct (run_app _ _ _ _ _ _ _ _ _ _ _ pl_run0) as (rb1 & rq1 & d1 & lm1 & R1 & R2).
  destruct (run_sums _ _ _ _ _ _ _ _ _ _ R1) as (_ & Hq1 & _).
  assert (HA2 : A2 <> []) by (intros ->; apply HF2; exact E2).
  inversion R2; subst; clear R2.
  match goal with HR : run _ _ _ _ _ A2 _ _ _ _ |- _ => pose proof (run_zero _ _ _ _ _ _ _ _ _ _ HR HA2) as [Hz1 Hz2] end.
  cbn in Hout. apply Z.eqb_neq in Hout.
  unfold fill_quote, sumZ. rewrite map_app. cbn [map]. destruct (fills_base x A1 n) as (_ & Hfq & _).
  unfold fill_quote, sumZ in Hfq.
  assert (Hsum : forall L z, fold_right Z.add 0 (L ++ [z]) = fold_right Z.add 0 L + z).
  { induction L as [|y L IHL]; intros z; cbn [app fold_right]; [lia|]. rewrite IHL. lia. }
  rewrite Hsum, Hfq. cbn [mkf make_fill f_price f_qty].
  assert (Hlt : k < qty i) by lia.
  match goal with HR : k < qty i -> _ |- _ => destruct (HR Hlt) as [E|E] end; cbn; lia.
Qed.

(** the posted order *)
Lemma posted_entry e : posted o r e -> exists ol' price pd id x acts rest es rb rq d lm post' U bo' removed R bs' p2 bo bs,
  ol' = ol /\ all bo = resting (negb (o_side o)) bk /\ all bs = resting (o_side o) bk /\
  placed cap cap capq bk o mk q oracle a pk now limit r bo bs Q n
      ol' price pd id x acts rest es rb rq d lm post' U bo' removed R bs' p2 (Some e) /\
  new = act_events x n acts ++ out_events (o_side o) now (n + Z.of_nat (length (act_events x n acts))) removed /\
  eff_price ol e = price /\ all bs' = resting (o_side o) (r_book r).
Proof.
  intros [Hid Hin]. destruct (oc_placed _ _ _ _ _ _ _ _ _ _ _ _ _ _ _ _ _ H)
    as (bo & bs & price & pd & id & x & acts & rest & es & rb & rq & d & lm & post' & U & bo' & removed & R & bs' & p2 & post
        & HP & Eo & Es & Eo' & Es' & Enew & Hoo & Hos). pose proof HP as HP'. destruct HP' as [pl_ol0 pl_items0 pl_es0 pl_perm0 pl_sorted0 pl_U0 pl_price0 pl_id0 pl_x0 pl_run0 pl_stop0 pl_opp0 pl_opp_view0 pl_opp'0 pl_own_view0 pl_own0 pl_own'0 pl_removed0 pl_q0 pl_market0 pl_tf0 pl_pos0 pl_post0].
  destruct post as [[c l]|]; [|destruct pl_post0; congruence].
  destruct pl_post0 as (Hpt & _ & Hri & Hq & _ & sl & _ & El & _).
  destruct pl_id0 as [Eid Hs]. rewrite Hid in Hri. injection Hri as Hri.
  assert (Hsq : in_u64 (mk_seq mk + 1)).
  { unfold in_u64. pose proof (oc_seq _ _ _ _ _ _ _ _ _ _ _ _ _ _ _ _ _ H). lia. }
  assert (E : e = (c, l)).
  { rewrite <- Es' in Hin. eapply Permutation_in in Hin; [|exact pl_own'0]. destruct Hin as [Hin|Hin]; [auto|].
    exfalso. assert (Hin2 : In e (all bs)).
    { eapply Permutation_in; [symmetry; exact pl_own0|]. apply in_or_app; right; exact Hin. }
    destruct Hos as [_ Hos]. destruct (Hos e Hin2) as [_ Hsn].
    pose proof (seqno_new (o_side o) pd (mk_seq mk + 1) Hsq) as Hn.
    rewrite (seqno_key _ (snd e) (mkLeaf 0 0 0 id 0 0 0 0 0)) in Hsn by exact Hri.
    rewrite Eid in Hsn. lia. }
  destruct (order_price_ok _ _ _ _ _ pl_price0 (oc_order _ _ _ _ _ _ _ _ _ _ _ _ _ _ _ _ _ H) (proj2 pl_ol0))
      as (Hp1 & Hpd & Hpd2 & _ & _).
  exists ol, price, pd, id, x, acts, rest, es, rb, rq, d, lm, post', U, bo', removed, R, bs', p2, bo, bs.
  split; [reflexivity|]. split; [exact Eo|]. split; [exact Es|]. split; [rewrite E; exact HP|]. split; [exact Enew|].
  split; [|exact Es'].
  assert (Hup : l_key (snd e) / 2 ^ 64 = pd).
  { rewrite Hri, Eid. rewrite new_node_key_eq by exact Hsq.
    rewrite Z.div_add_l by lia. rewrite Z.div_small; [lia|].
    destruct (o_side o); [pose proof (not_u64_range _ Hsq)|]; unfold in_u64, u64_max in *; lia. }
  unfold eff_price. rewrite Hup. subst e. cbn [fst].
  unfold is_pegged, post_target in *. destruct (o_params o); try discriminate; injection Hpt as <-; lia.
Qed.

Lemma call_totals e : posted o r e ->
  fill_base (fills new) + l_quantity (snd e) <= o_max_base o /\
  fill_quote (fills new) + l_quantity (snd e) * eff_price ol e <= o_max_quote o.
Proof.
  intros HP. destruct (posted_entry e HP) as (ol' & price & pd & id & x & acts & rest & es & rb & rq & d & lm & post' & U & bo'
    & removed & R & bs' & p2 & bo & bs & -> & Eo & Es & HP' & Enew & Ep & Es'). destruct HP' as [pl_ol0 pl_items0 pl_es0 pl_perm0 pl_sorted0 pl_U0 pl_price0 pl_id0 pl_x0 pl_run0 pl_stop0 pl_opp0 pl_opp_view0 pl_opp'0 pl_own_view0 pl_own0 pl_own'0 pl_removed0 pl_q0 pl_market0 pl_tf0 pl_pos0 pl_post0]. destruct e as [c l].
  destruct pl_post0 as (Hpt & _ & Hri & Hq & Hq2 & _).
  rewrite Enew, fills_app, fills_out, app_nil_r.
  destruct (fills_base x acts n) as (-> & -> & _).
  destruct (run_sums _ _ _ _ _ _ _ _ _ _ pl_run0) as (H1 & H2 & H3 & H4 & H5 & H6).
  destruct (order_price_ok _ _ _ _ _ pl_price0 (oc_order _ _ _ _ _ _ _ _ _ _ _ _ _ _ _ _ _ H) (proj2 pl_ol0))
      as (Hp1 & _). rewrite Ep. cbn [snd].
  assert (rq / price * price <= rq) by (pose proof (Z.mul_div_le rq price ltac:(lia)); lia).
  assert (l_quantity l * price <= rq / price * price) by (apply Z.mul_le_mono_nonneg_r; lia).
  split; lia.
Qed.

Lemma post_only_acts x acts rb rq d lm rb' rq' d' lm' :
  run x rb rq d lm acts rb' rq' d' lm' -> is_post_only (x_order x) = true ->
  filter is_fill acts = [] /\ rb' = rb /\ rq' = rq /\ forall i a, In (i, a) acts -> item_valid i = false.
Proof.
  induction 1; intros Hpo; try congruence; cbn [filter is_fill snd].
  - repeat (split; [reflexivity|]). intros i a0 [].
  - destruct (IHrun Hpo) as (I1 & I2 & I3 & I4). split; [exact I1|]. split; [exact I2|]. split; [exact I3|].
    intros j b [E|Hj]; [injection E as <- <-; assumption|eauto].
  - destruct (IHrun Hpo) as (I1 & I2 & I3 & I4). split; [exact I1|]. split; [exact I2|]. split; [exact I3|].
    intros j b [E|Hj]; [injection E as <- <-; assumption|eauto].
Qed.

Lemma call_post_only : is_post_only o = true -> fills new = [].
Proof.
  open_call H. intros Hpo. subst new. rewrite fills_app, fills_out, app_nil_r.
  destruct pl_x0 as (Hx1 & _). destruct (post_only_acts _ _ _ _ _ _ _ _ _ _ pl_run0) as (Hf & _); [rewrite Hx1; exact Hpo|].
  pose proof (fills_acts x acts n) as HF. rewrite Hf in HF. inversion HF. reflexivity.
Qed.

(** valid items behind the first valid item that does not cross do not cross *)
Lemma not_crossing e0 e price : before os ol e0 e -> ~ crosses (o_side o) price (eff_price ol e0) ->
  ~ crosses (o_side o) price (eff_price ol e).
Proof. unfold before, crosses, better_price, os. destruct (o_side o); cbn [negb]; lia. Qed.

(** every live opposing order left in [rest] is not crossed *)
Lemma rest_not_crossed b es (acts : list aitem) rest x rb rq lm post' price :
  map fst acts ++ rest = map (item_of os now ol) es -> Permutation es (entries ol (fst b) (snd b)) ->
  StronglySorted (before os ol) es -> x_order x = o -> x_price x = price ->
  stopped x rest rb rq lm (post_target o) post' -> post' <> None -> 0 < rb -> 0 < rq ->
  (is_post_only o = true \/ forall i, In i rest -> item_valid i = true -> is_price_within_limit (o_side o) (it_price i) price = true -> it_price i <= rq) ->
  forall e, live os now ol e -> In (item_of os now ol e) rest -> ~ crosses (o_side o) price (eff_price ol e).
Proof.
  intros Ees HPes HS Hx Hxp Hst Hpo Hrb Hrq Hq e Hlive Hin.
  assert (Hval : item_valid (item_of os now ol e) = true) by (apply item_valid_iff; apply Hlive).
  destruct Hst as [[_ Hst]|[E _]]; [|congruence].
  destruct Hst as [->|(i & rest' & -> & Hc)]; [destruct Hin|].
  rewrite Hx, Hxp in Hc.
  destruct Hc as [Hc|[Hc|(Hv & Hc)]]; [lia|lia|].
  assert (Hi : In i (i :: rest')) by (left; reflexivity).
  assert (Hnot : ~ crosses (o_side o) price (it_price i)).
  { rewrite <- within_iff. destruct Hc as [Hc|(Hc1 & _ & Hc2)]; [congruence|]. intros Hw.
    destruct Hq as [Hq|Hq]; [congruence|]. specialize (Hq i Hi Hv Hw). lia. }
  destruct Hin as [E|Hin].
  { rewrite E in Hnot. exact Hnot. }
  assert (Hent : map entry_of (map fst acts ++ i :: rest') = es).
  { rewrite Ees, map_map. erewrite map_ext; [apply map_id|]. intros [c l]; reflexivity. }
  rewrite <- Hent in HS. rewrite map_app in HS. destruct (ssorted_app_inv _ _ _ HS) as (_ & HS2 & _).
  cbn [map] in HS2. apply StronglySorted_inv in HS2 as [_ HF]. rewrite Forall_forall in HF.
  assert (Hini : In i (map (item_of os now ol) es)).
  { rewrite <- Ees. apply in_or_app; right; left; reflexivity. }
  apply in_map_iff in Hini as (e0 & Ei & _).
  assert (E0 : entry_of i = e0) by (rewrite <- Ei; destruct e0; reflexivity).
  rewrite E0 in HF. apply (not_crossing e0).
  - apply HF. apply in_map_iff. exists (item_of os now ol e). split; [destruct e; reflexivity|exact Hin].
  - rewrite <- Ei in Hnot. exact Hnot.
Qed.

Lemma posted_not_crossing e e' : posted o r e -> is_post_only o = true \/ sd = Bid ->
  In e' (resting os bk) -> live os now ol e' ->
  (* not consumed by this very order *)
  (is_post_only o = true \/ ~ reported_out os new e' /\ ~ exists f, In f (fills new) /\ made_with ol f e') ->
  ~ crosses sd (eff_price ol e) (eff_price ol e').
Proof.
  intros HP Hcase He' Hlive Hcons.
  destruct (posted_entry e HP) as (ol' & price & pd & id & x & acts & rest & es & rb & rq & d & lm & post' & U & bo'
    & removed & R & bs' & p2 & bo & bs & -> & Eo & Es & HP' & Enew & Ep & Es'). destruct HP' as [pl_ol0 pl_items0 pl_es0 pl_perm0 pl_sorted0 pl_U0 pl_price0 pl_id0 pl_x0 pl_run0 pl_stop0 pl_opp0 pl_opp_view0 pl_opp'0 pl_own_view0 pl_own0 pl_own'0 pl_removed0 pl_q0 pl_market0 pl_tf0 pl_pos0 pl_post0]. destruct e as [c l].
  destruct pl_post0 as (Hpt & Hpt' & Hri & Hq & Hq2 & _).
  destruct (order_price_ok _ _ _ _ _ pl_price0 (oc_order _ _ _ _ _ _ _ _ _ _ _ _ _ _ _ _ _ H) (proj2 pl_ol0))
      as (Hp1 & _). rewrite Ep.
  assert (Hrb : 0 < rb) by lia.
  assert (Hrqp : price <= rq).
  { assert (1 <= rq / price) by lia. pose proof (Z.mul_div_le rq price ltac:(lia)). nia. }
  destruct pl_x0 as (Hx1 & Hx2 & Hx3 & Hx4 & _).
  assert (Hen : In (item_of os now ol e') (map fst acts ++ rest)).
  { fold os in pl_es0. rewrite pl_es0. apply in_map. eapply Permutation_in; [symmetry; exact pl_perm0|].
    unfold os in He'. rewrite <- Eo in He'. eapply live_entries; [exact Hlive|exact He']. }
  assert (Hval : item_valid (item_of os now ol e') = true) by (apply item_valid_iff; apply Hlive).
  apply in_app_or in Hen as [Hen|Hen].
  - exfalso. apply in_map_iff in Hen as ([i ac] & Ei & Hi). cbn [fst] in Ei. subst i.
    pose proof (run_in _ _ _ _ _ _ _ _ _ _ pl_run0 _ _ Hi) as Hr. rewrite Hx1 in Hr.
    destruct ac as [| | |k]; [congruence|congruence| |].
    + destruct Hr as (_ & _ & _ & Hr). destruct Hcons as [Hcons|[Hcons _]]; [congruence|]. apply Hcons.
      subst new.
      assert (Hout : forall acts m, In (item_of os now ol e', ACancel) acts ->
        exists s, In (out_of_leaf os now s (snd e')) (act_events x m acts)).
      { clear -Hx1 Hx3. induction acts as [|[j b] acts IH]; intros m Hm; [destruct Hm|destruct Hm as [E|Hj]].
        - injection E as -> ->. exists m. cbn [act_events act_event app]. left. rewrite Hx1, Hx3. reflexivity.
        - destruct (IH (m + Z.of_nat (length (act_event x m (j, b)))) Hj) as (s & Hs). exists s.
          cbn [act_events]. apply in_or_app; right; exact Hs. }
      destruct (Hout acts n Hi) as (s & Hs). unfold out_of_leaf in Hs.
      eexists. split; [apply in_or_app; left; exact Hs|]. cbn. auto 6.
    + destruct Hr as (_ & Hk & Hpo & _). destruct Hcons as [Hcons|[_ Hcons]]; [congruence|]. apply Hcons.
      apply in_split in Hi as (A1 & A2 & EA).
      assert (Hff : exists s, In (mkf x s (item_of os now ol e') k) (fills (act_events x n acts))).
      { rewrite EA. clear. revert n. induction A1 as [|b A1 IH]; intros m; cbn [app act_events].
        - exists m. cbn [act_event]. rewrite mkf_eq. rewrite fills_app. left. reflexivity.
        - destruct (IH (m + Z.of_nat (length (act_event x m b)))) as (s & Hs). exists s. rewrite fills_app.
          apply in_or_app; right; exact Hs. }
      destruct Hff as (s & Hs). exists (mkf x s (item_of os now ol e') k). split.
      * rewrite Enew, fills_app. apply in_or_app; left; exact Hs.
      * apply mkf_made, Hk.
  - eapply (rest_not_crossed bo es acts rest x rb rq lm post' price); eauto; try congruence; try lia.
    destruct Hcase as [Hc|Hc]; [left; exact Hc|right]. intros i _ _ Hw. apply within_iff in Hw.
    unfold sd in Hc. unfold crosses in Hw. rewrite Hc in Hw. unfold Bid in Hw. cbv iota in Hw. lia.
Qed.
End Call.
