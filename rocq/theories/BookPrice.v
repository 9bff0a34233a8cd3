(** The price at which a posted order rests. *)
From Coq Require Import List ZArith Lia Bool Arith Permutation Sorted.
From Verif Require Import OrderTree OrderTreeSpec KeyBits OrderTreeRep BookArena BookArenaProofs
  BookArenaFacts Keys Fixed BookSide BookSideSpec BookSideProofs BookSideView BookSideWorst EventQueue PerpTypes Book
  BookLoop BookApply BookPlace BookSpec BookFacts BookResults BookResults2.
Import ListNotations.
Open Scope Z_scope.

Section Call.
Context {cap capq : nat} {bk : orderbook} {o : order} {mk : market} {q : evq} {oracle : fx}
  {a : account} {pk now : Z} {limit : nat} {r : place_result} {ol : Z} {Q new : list event} {n n' : Z}.
Hypothesis H : order_call cap capq bk o mk q oracle a pk now limit r ol Q new n n'.
Local Notation sd := (o_side o).
Local Notation os := (negb (o_side o)).

Local Notation best_live := (best_live os bk now ol).

Lemma call_posted_price e : posted o r e -> exists p, requested_price o ol = Some p /\
  if is_slide o then
    (eff_price ol e = p /\ forall b, ~ best_live b) \/
    (exists b, best_live b /\ eff_price ol e = if sd then Z.min p (eff_price ol b - 1) else Z.max p (eff_price ol b + 1))
  else eff_price ol e = p.
Proof.
  intros HP. destruct (posted_entry H e HP) as (ol' & price & pd & id & x & acts & rest & es & rb & rq & d & lm & post' & U & bo'
    & removed & R & bs' & p2 & bo & bs & -> & Eo & Es & HP' & Enew & Ep & Es').
  destruct HP' as [pl_ol0 pl_items0 pl_es0 pl_perm0 pl_sorted0 pl_U0 pl_price0 pl_id0 pl_x0 pl_run0 pl_stop0 pl_opp0 pl_opp_view0 pl_opp'0 pl_own_view0 pl_own0 pl_own'0 pl_removed0 pl_q0 pl_market0 pl_tf0 pl_pos0 pl_post0].
  destruct e as [c l]. destruct pl_post0 as (Hpt & _). rewrite Ep.
  set (best := best_price (filter item_valid (map fst acts ++ rest))) in *.
  assert (Hbest : match best with
    | None => forall b, ~ best_live b
    | Some p => exists b, best_live b /\ eff_price ol b = p end).
  { unfold best. rewrite pl_es0. clear -pl_perm0 pl_sorted0 Eo.
    assert (HIn : forall e', In e' (resting os bk) -> live os now ol e' -> In e' es).
    { intros e' He' Hl. eapply Permutation_in; [symmetry; exact pl_perm0|]. eapply live_entries; [exact Hl|]. rewrite Eo. exact He'. }
    assert (Hall : forall e', In e' es -> In e' (resting os bk) /\ (item_valid (item_of os now ol e') = true -> live os now ol e')).
    { intros e' He'. assert (Hen : In e' (entries ol (fst bo) (snd bo))) by (eapply Permutation_in; [exact pl_perm0|exact He']).
      split. { rewrite <- Eo. eapply Permutation_in; [symmetry; apply (entries_all ol)|]. apply in_or_app; left. exact Hen. }
      intros Hv. split; [apply item_valid_iff; exact Hv|]. intros Hf. unfold entries in Hen.
      apply in_app_or in Hen as [Hen|Hen]; apply in_map_iff in Hen as (l & <- & Hl); [discriminate|].
      apply filter_In in Hl. apply Hl. }
    clear pl_perm0 Eo.
    assert (HG : forall es1 pre, es = pre ++ es1 -> (forall e', In e' pre -> item_valid (item_of os now ol e') = false) ->
       match best_price (filter item_valid (map (item_of os now ol) es1)) with
       | None => forall b, ~ best_live b
       | Some p => exists b, best_live b /\ eff_price ol b = p end).
    { induction es1 as [|e1 es1 IH]; intros pre Epre Hpre; cbn [map filter].
      - cbn. intros b (Hb1 & Hb2 & _). pose proof (HIn b Hb1 Hb2) as Hb. rewrite Epre, app_nil_r in Hb.
        pose proof (Hpre b Hb) as Hbf. assert (item_valid (item_of os now ol b) = true) by (apply item_valid_iff, Hb2). congruence.
      - destruct (item_valid (item_of os now ol e1)) eqn:Ev.
        + cbn. exists e1. split; [|destruct e1; reflexivity].
          assert (He1 : In e1 es) by (rewrite Epre; apply in_or_app; right; left; reflexivity).
          destruct (Hall e1 He1) as [Hr1 Hl1]. split; [exact Hr1|]. split; [apply Hl1, Ev|].
          intros e' He' Hlive. pose proof (HIn e' He' Hlive) as Hes. rewrite Epre in Hes, pl_sorted0.
          apply in_app_or in Hes as [Hes|[Hes|Hes]].
          * pose proof (Hpre e' Hes). assert (item_valid (item_of os now ol e') = true) by (apply item_valid_iff, Hlive). congruence.
          * left; congruence.
          * right. clear -pl_sorted0 Hes. induction pre as [|y pre IH]; cbn [app] in pl_sorted0.
            -- apply StronglySorted_inv in pl_sorted0 as [_ HF]. rewrite Forall_forall in HF. apply HF, Hes.
            -- apply StronglySorted_inv in pl_sorted0 as [HS _]. exact (IH HS).
        + apply (IH (pre ++ [e1])). { rewrite Epre, <- app_assoc. reflexivity. }
          intros e' He'. apply in_app_or in He' as [He'|[<-|[]]]; auto. }
    apply (HG es []); [reflexivity|intros e' []]. }
  clearbody best.
  pose proof (oc_order _ _ _ _ _ _ _ _ _ _ _ _ _ _ _ _ _ H) as Hwf.
  unfold order_price in pl_price0. unfold requested_price, is_slide.
  assert (Hpf : forall p ty, price_for_order_type o p ty best = Some price ->
    match ty with PTPostOnlySlide =>
      (price = p /\ forall b, ~ best_live b) \/
      (exists b, best_live b /\ price = if sd then Z.min p (eff_price ol b - 1) else Z.max p (eff_price ol b + 1))
    | _ => price = p end).
  { intros p ty Hp. unfold price_for_order_type in Hp. destruct ty; try (destruct best; congruence).
    destruct best as [bp|].
    - right. destruct Hbest as (b & Hb & Eb). exists b. split; [exact Hb|]. rewrite Eb. unfold slide_limit in Hp.
      destruct sd; [destruct (chk_i64 (bp - 1)) eqn:E|destruct (chk_i64 (bp + 1)) eqn:E]; try discriminate;
        apply chk_i64_some in E as [-> _]; congruence.
    - left. split; [congruence|exact Hbest]. }
  unfold post_target in Hpt.
  destruct (o_params o) as [|pp|pp ty|off ty pl]; try discriminate.
  - exists pp. split; [reflexivity|]. destruct (price_for_order_type o pp ty best) as [p1|] eqn:E1; [|discriminate].
    destruct (fixed_price_data p1) eqn:E2; [|discriminate]. destruct (1 <=? p1); [|discriminate].
    injection pl_price0 as -> _. specialize (Hpf _ _ E1). destruct ty; exact Hpf.
  - exists (ol + off). split; [reflexivity|]. destruct (chk_i64 (ol + off)) as [p0|] eqn:E0; [|discriminate].
    apply chk_i64_some in E0 as [-> _].
    destruct (price_for_order_type o (ol + off) ty best) as [p1|] eqn:E1; [|discriminate].
    destruct (chk_i64 (p1 - ol)) eqn:E2; [|discriminate]. destruct (1 <=? p1); [|discriminate].
    injection pl_price0 as -> _. specialize (Hpf _ _ E1). destruct ty; exact Hpf.
Qed.

(** an order that passed through the loop was filled or reported out *)
Lemma act_consumed x acts rb rq d lm m e' ac : x_order x = o -> x_now x = now ->
  run x (o_max_base o) (o_max_quote o) 0 limit acts rb rq d lm -> live os now ol e' ->
  In (item_of os now ol e', ac) acts ->
  reported_out os (act_events x m acts) e' \/ exists f, In f (fills (act_events x m acts)) /\ made_with ol f e'.
Proof.
  intros Hx1 Hx3 Hrun Hlive Hi.
  assert (Hval : item_valid (item_of os now ol e') = true) by (apply item_valid_iff; apply Hlive).
  pose proof (run_in _ _ _ _ _ _ _ _ _ _ Hrun _ _ Hi) as Hr. rewrite Hx1 in Hr.
  destruct ac as [| | |k]; [congruence|congruence| |].
  - left.
      assert (Hout : forall acts m, In (item_of os now ol e', ACancel) acts ->
        exists s, In (out_of_leaf os now s (snd e')) (act_events x m acts)).
      { clear -Hx1 Hx3. induction acts as [|[j b] acts IH]; intros m Hm; [destruct Hm|destruct Hm as [E|Hj]].
        - injection E as -> ->. exists m. cbn [act_events act_event app]. left. rewrite Hx1, Hx3. reflexivity.
        - destruct (IH (m + Z.of_nat (length (act_event x m (j, b)))) Hj) as (s & Hs). exists s.
          cbn [act_events]. apply in_or_app; right; exact Hs. }
      destruct (Hout acts m Hi) as (s & Hs). unfold out_of_leaf in Hs.
      eexists. split; [exact Hs|]. cbn. auto 6.
  - right. destruct Hr as (_ & Hk & Hpo & _).
      apply in_split in Hi as (A1 & A2 & EA).
      assert (Hff : exists s, In (mkf x s (item_of os now ol e') k) (fills (act_events x m acts))).
      { rewrite EA. clear. revert m. induction A1 as [|b A1 IH]; intros m; cbn [app act_events].
        - exists m. cbn [act_event]. rewrite mkf_eq. rewrite fills_app. left. reflexivity.
        - destruct (IH (m + Z.of_nat (length (act_event x m b)))) as (s & Hs). exists s. rewrite fills_app.
          apply in_or_app; right; exact Hs. }
      destruct Hff as (s & Hs). exists (mkf x s (item_of os now ol e') k). split; [exact Hs|apply mkf_made, Hk].
Qed.

(** a taking order leaves a live order it crosses on the book only if it ran out of
    base, quote or its match limit *)
Lemma call_maximal e' : is_post_only o = false -> In e' (resting os bk) -> live os now ol e' ->
  (forall p, requested_price o ol = Some p -> crosses sd p (eff_price ol e')) ->
  ~ reported_out os new e' -> (~ exists f, In f (fills new) /\ made_with ol f e') ->
  fill_base (fills new) = o_max_base o \/ length (fills new) = limit \/
  exists e0, In e0 (resting os bk) /\ live os now ol e0 /\ (e0 = e' \/ before os ol e0 e') /\
    o_max_quote o - fill_quote (fills new) < eff_price ol e0.
Proof.
  intros Hnpo He' Hlive Hcr Hno Hnf. open_call H.
  destruct (order_price_ok _ _ _ _ _ pl_price0 (oc_order _ _ _ _ _ _ _ _ _ _ _ _ _ _ _ _ _ H) (proj2 pl_ol0))
      as (Hp1 & _ & _ & _ & Hmk).
  destruct pl_x0 as (Hx1 & Hx2 & Hx3 & Hx4 & _).
  assert (Hval : item_valid (item_of os now ol e') = true) by (apply item_valid_iff; apply Hlive).
  assert (Hent : In e' (entries ol (fst bo) (snd bo))) by (eapply live_entries; [exact Hlive|rewrite Eo; exact He']).
  assert (Hes : In e' es) by (eapply Permutation_in; [symmetry; exact pl_perm0|exact Hent]).
  assert (Hiok : item_ok (item_of os now ol e')) by (eapply item_of_ok; [exact Hoo|exact Hent]). destruct Hiok as [Hpe _]. change (1 <= eff_price ol e') in Hpe.
  assert (Hin : In (item_of os now ol e') (map fst acts ++ rest)) by (rewrite pl_es0; apply in_map, Hes).
  apply in_app_or in Hin as [Hin|Hin].
  { exfalso. apply in_map_iff in Hin as ([i ac] & Ei & Hi). cbn [fst] in Ei. subst i.
    destruct (act_consumed x acts rb rq d lm n e' ac Hx1 Hx3 pl_run0 Hlive Hi) as [Hc|(f & Hf & Hm)].
    - apply Hno. rewrite Enew. destruct Hc as (u & Hu & Hu'). exists u. split; [apply in_or_app; left; exact Hu|exact Hu'].
    - apply Hnf. exists f. split; [|exact Hm]. rewrite Enew, fills_app. apply in_or_app; left; exact Hf. }
  rewrite Enew, fills_app, fills_out, app_nil_r. destruct (fills_base x acts n) as (-> & -> & ->).
  destruct (run_sums _ _ _ _ _ _ _ _ _ _ pl_run0) as (Hs1 & Hs2 & _ & _ & Hs5 & _).
  (* every item of rest comes from a resting order, in priority order *)
  assert (Hfirst : forall i rest', rest = i :: rest' -> item_valid i = true ->
     exists e0, i = item_of os now ol e0 /\ In e0 (resting os bk) /\ live os now ol e0 /\ (e0 = e' \/ before os ol e0 e')).
  { intros i rest' Er Hv. subst rest.
    assert (Hsplit : exists es1 e0 es2, es = es1 ++ e0 :: es2 /\ map fst acts = map (item_of os now ol) es1 /\
      i = item_of os now ol e0 /\ rest' = map (item_of os now ol) es2).
    { clear -pl_es0. remember (map fst acts) as A eqn:HA. clear HA. revert es pl_es0.
      induction A as [|y A IH]; intros es E; destruct es as [|e es]; try discriminate; cbn [app map] in E.
      - injection E as E1 E2. exists [], e, es. auto.
      - injection E as E1 E2. destruct (IH es E2) as (es1 & e0 & es2 & -> & -> & H1 & H2).
        exists (e :: es1), e0, es2. cbn [map app]. rewrite E1. auto. }
    destruct Hsplit as (es1 & e0 & es2 & E1 & E2 & E3 & E4). exists e0.
    assert (He0 : In e0 (entries ol (fst bo) (snd bo))).
    { eapply Permutation_in; [exact pl_perm0|]. rewrite E1. apply in_or_app; right; left; reflexivity. }
    split; [exact E3|]. split.
    { rewrite <- Eo. eapply Permutation_in; [symmetry; apply (entries_all ol)|]. apply in_or_app; left; exact He0. }
    split.
    { split; [apply item_valid_iff; rewrite <- E3; exact Hv|]. intros Hf. unfold entries in He0.
      apply in_app_or in He0 as [Hen|Hen]; apply in_map_iff in Hen as (l & <- & Hl); [discriminate|].
      apply filter_In in Hl. apply Hl. }
    rewrite E3, E4 in Hin. change (item_of os now ol e0 :: map (item_of os now ol) es2) with (map (item_of os now ol) (e0 :: es2)) in Hin.
    apply in_map_iff in Hin as (e1 & Ee & Hin).
    assert (e1 = e').
    { unfold item_of in Ee. destruct e1, e'. cbn in Ee. injection Ee as -> -> _ _. reflexivity. } subst e1.
    destruct Hin as [->|Hin]; [left; reflexivity|right].
    rewrite E1 in pl_sorted0. clear -pl_sorted0 Hin. induction es1 as [|y pre IH]; cbn [app] in pl_sorted0.
    - apply StronglySorted_inv in pl_sorted0 as [_ HF]. rewrite Forall_forall in HF. apply HF, Hin.
    - apply StronglySorted_inv in pl_sorted0 as [HS _]. exact (IH HS). }
  assert (Hcross : forall e0, live os now ol e0 -> In e0 (resting os bk) -> (e0 = e' \/ before os ol e0 e') ->
     is_price_within_limit sd (eff_price ol e0) price = true).
  { intros e0 Hl0 Hr0 Hb. apply within_iff.
    assert (Hce : crosses sd price (eff_price ol e')).
    { unfold order_price in pl_price0. unfold requested_price in Hcr. unfold is_post_only in Hnpo.
      destruct (o_params o) as [|pp|pp ty|off ty pl].
      - rewrite (Hmk eq_refl). unfold crosses. destruct sd eqn:Esd; [|lia].
        assert (Hpe2 : in_i64 (eff_price ol e')).
        { destruct Hlive as [_ Hrep]. destruct e' as [c l]. destruct c.
          - specialize (Hrep eq_refl). unfold representable in Hrep. unfold eff_price. cbn [fst snd] in *.
            apply andb_true_iff in Hrep as [Hr1 Hr2]. apply Z.leb_le in Hr1; apply Z.ltb_lt in Hr2; unfold eff_price in Hr1, Hr2; cbn [fst snd] in Hr1, Hr2. unfold in_i64, i64_min. unfold i64_max in *. lia.
          - destruct (oc_book _ _ _ _ _ _ _ _ _ _ _ _ _ _ _ _ _ H Ask) as (_ & Hfo & _).
            specialize (Hfo l He'). unfold fixed_ok in Hfo. unfold eff_price. cbn [fst snd]. unfold in_i64, i64_min. unfold i64_max in *. lia. }
        unfold in_i64 in Hpe2. lia.
      - specialize (Hcr _ eq_refl). destruct (fixed_price_data pp); [|discriminate]. destruct (1 <=? pp); [|discriminate].
        injection pl_price0 as -> _. exact Hcr.
      - destruct ty; try discriminate. cbn [price_for_order_type] in pl_price0. specialize (Hcr _ eq_refl).
        destruct (best_price (filter item_valid (map fst acts ++ rest))); destruct (fixed_price_data pp); try discriminate; destruct (1 <=? pp); try discriminate;
        injection pl_price0 as -> _; exact Hcr.
      - destruct ty; try discriminate. cbn [price_for_order_type] in pl_price0. specialize (Hcr _ eq_refl).
        destruct (chk_i64 (ol + off)) as [p0|] eqn:E0; [|discriminate]. apply chk_i64_some in E0 as [-> _].
        destruct (best_price (filter item_valid (map fst acts ++ rest))); destruct (chk_i64 _); try discriminate; destruct (1 <=? _); try discriminate;
        injection pl_price0 as Epr _; rewrite <- Epr; exact Hcr. }
    destruct Hb as [->|Hb]; [exact Hce|]. revert Hce Hb. unfold before, crosses, better_price. destruct sd; cbn [negb]; lia. }
  destruct pl_stop0 as [[_ Hst]|(_ & _ & _ & i & rest' & Er & Hv & Hw & Hc)].
  - destruct Hst as [->|(i & rest' & Er & Hc)]; [destruct Hin|].
    destruct Hc as [Hc|[Hc|(Hv & Hc)]].
    + left. lia.
    + right; right. exists e'. repeat (split; [assumption|]). split; [left; reflexivity|]. lia.
    + destruct (Hfirst i rest' Er Hv) as (e0 & Ei & Hr0 & Hl0 & Hb). rewrite Hx1, Hx4 in Hc. rewrite Ei in Hc.
      change (it_price (item_of os now ol e0)) with (eff_price ol e0) in Hc. rewrite (Hcross e0 Hl0 Hr0 Hb) in Hc.
      destruct Hc as [Hc|(_ & _ & Hc)]; [discriminate|]. right; right. exists e0. repeat (split; [assumption|]). lia.
  - rewrite Hx1 in Hc. destruct Hc as [Hc|Hc]; [congruence|]. right; left. lia.
Qed.
End Call.
