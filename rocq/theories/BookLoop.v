(** What the matching loop does, as a list of per-order actions. *)
From Coq Require Import List ZArith Lia Bool Arith Permutation Sorted.
From Verif Require Import OrderTree OrderTreeSpec KeyBits OrderTreeRep BookArena BookArenaProofs
  BookArenaFacts Keys Fixed BookSide BookSideSpec BookSideProofs BookSideView BookSideWorst EventQueue PerpTypes Book.
Import ListNotations.
Open Scope Z_scope.

(** *** queue *)
Definition qview (cap : nat) (q : evq) (L : list event) (n : Z) : Prop := qrep cap q (L, n).

Lemma push_view cap q L n e q' : qview cap q L n -> push q e = Some q' -> qview cap q' (L ++ [e]) (n + 1).
Proof.
  unfold qview, push. intros Hq Hp. pose proof Hq as (Hb & Hh & Hc & Hle & Hs & Hn & Hnth).
  unfold q_push, q_full in Hp. rewrite Hb in Hp.
  destruct (Nat.eqb_spec (q_count q) cap) as [E|E]; [discriminate|].
  destruct (Z.leb_spec (q_seq q + 1) u64_max) as [E2|E2]; [|discriminate].
  cbn [snd fst] in *.
  destruct (q_step_ok cap q (L, n) (QPush e) ltac:(lia) Hq ltac:(cbn [snd]; lia)) as (q1 & E1 & R1).
  cbn [q_step fifo_step] in E1, R1. unfold q_push, q_full in E1. rewrite Hb in E1.
  destruct (Nat.eqb_spec (q_count q) cap); [lia|].
  destruct (Z.leb_spec (q_seq q + 1) u64_max); [|lia].
  injection Hp as <-. injection E1 as <- _.
  destruct (Nat.ltb_spec (length L) cap); [exact R1|lia].
Qed.
Lemma qview_seq cap q L n : qview cap q L n -> q_seq q = n.
Proof. intros (_ & _ & _ & _ & H & _). exact H. Qed.

(** *** actions *)
Inductive act := ASkip | ADrop | ACancel | AFill (q : Z).

Definition aitem := (item * act)%type.
Definition own (x : mctx) (i : item) : bool := x_pk x =? l_owner (it_leaf i).
Definition qty (i : item) : Z := l_quantity (it_leaf i).

Definition act_event (x : mctx) (seq : Z) (ia : aitem) : list event :=
  let '(i, a) := ia in
  match a with
  | ASkip => []
  | ADrop | ACancel => [out_of_leaf (negb (o_side (x_order x))) (x_now x) seq (it_leaf i)]
  | AFill q => [make_fill x i (own x i) (qty i - q =? 0) q seq]
  end.
Fixpoint act_events (x : mctx) (seq : Z) (L : list aitem) : list event :=
  match L with
  | [] => []
  | ia :: L' => let es := act_event x seq ia in es ++ act_events x (seq + Z.of_nat (length es)) L'
  end.
Definition fq (ia : aitem) : Z := match snd ia with AFill q => q | _ => 0 end.
Definition sum_base (L : list aitem) : Z := fold_right (fun ia s => fq ia + s) 0 L.
Definition sum_quote (L : list aitem) : Z := fold_right (fun ia s => fq ia * it_price (fst ia) + s) 0 L.
Definition sum_dec (x : mctx) (L : list aitem) : Z :=
  fold_right (fun ia s => (if own x (fst ia) then fq ia * it_price (fst ia) else 0) + s) 0 L.
Definition act_change (ia : aitem) : list (comp * leaf * Z) :=
  let '(i, a) := ia in
  match a with
  | AFill q => if qty i - q =? 0 then [] else [(it_pegged i, it_leaf i, qty i - q)]
  | _ => []
  end.
Definition act_delete (ia : aitem) : list (comp * leaf) :=
  let '(i, a) := ia in
  match a with
  | ASkip => []
  | ADrop | ACancel => [(it_pegged i, it_leaf i)]
  | AFill q => if qty i - q =? 0 then [(it_pegged i, it_leaf i)] else []
  end.
Definition is_fill (ia : aitem) : bool := match snd ia with AFill _ => true | _ => false end.
Definition is_drop (ia : aitem) : bool := match snd ia with ADrop => true | _ => false end.

(** the loop, as a run over actions: remaining base/quote, dropped count, limit *)
Inductive run (x : mctx) : Z -> Z -> nat -> nat -> list aitem -> Z -> Z -> nat -> nat -> Prop :=
| R_nil rb rq d lm : run x rb rq d lm [] rb rq d lm
| R_skip rb rq d lm i L rb' rq' d' lm' : 0 < rb -> 0 < rq -> item_valid i = false ->
    (DROP_EXPIRED_ORDER_LIMIT <= d)%nat ->
    run x rb rq d lm L rb' rq' d' lm' -> run x rb rq d lm ((i, ASkip) :: L) rb' rq' d' lm'
| R_drop rb rq d lm i L rb' rq' d' lm' : 0 < rb -> 0 < rq -> item_valid i = false ->
    (d < DROP_EXPIRED_ORDER_LIMIT)%nat ->
    run x rb rq (S d) lm L rb' rq' d' lm' -> run x rb rq d lm ((i, ADrop) :: L) rb' rq' d' lm'
| R_cancel rb rq d lm i L rb' rq' d' lm' : 0 < rb -> 0 < rq -> item_valid i = true ->
    is_price_within_limit (o_side (x_order x)) (it_price i) (x_price x) = true ->
    is_post_only (x_order x) = false -> (0 < lm)%nat -> it_price i <= rq ->
    own x i = true -> o_stb (x_order x) = CancelProvide ->
    run x rb rq d lm L rb' rq' d' lm' -> run x rb rq d lm ((i, ACancel) :: L) rb' rq' d' lm'
| R_fill rb rq d lm i q L rb' rq' d' lm' : 0 < rb -> 0 < rq -> item_valid i = true ->
    is_price_within_limit (o_side (x_order x)) (it_price i) (x_price x) = true ->
    is_post_only (x_order x) = false -> (0 < lm)%nat ->
    0 < q <= qty i -> q <= rb -> q * it_price i <= rq ->
    (q < qty i -> rb = q \/ rq < (q + 1) * it_price i) ->
    (own x i = true -> o_stb (x_order x) = DecrementTake) ->
    run x (rb - q) (rq - q * it_price i) d (lm - 1) L rb' rq' d' lm' ->
    run x rb rq d lm ((i, AFill q) :: L) rb' rq' d' lm'.

(** why the loop ended in front of [rest], and what that does to the post target *)
Definition stopped (x : mctx) (rest : list item) (rb rq : Z) (lm : nat) (post post' : option comp) : Prop :=
  (post' = post /\
   (rest = [] \/
    exists i rest', rest = i :: rest' /\
      (rb = 0 \/ rq = 0 \/
       (item_valid i = true /\
        (is_price_within_limit (o_side (x_order x)) (it_price i) (x_price x) = false \/
         (is_post_only (x_order x) = false /\ (0 < lm)%nat /\ rq < it_price i)))))) \/
  (post' = None /\ 0 < rb /\ 0 < rq /\
   exists i rest', rest = i :: rest' /\ item_valid i = true /\
     is_price_within_limit (o_side (x_order x)) (it_price i) (x_price x) = true /\
     (is_post_only (x_order x) = true \/ lm = 0%nat)).

Definition item_ok (i : item) : Prop := 1 <= it_price i /\ 0 < qty i.

Lemma match_loop_run x L : Forall item_ok L -> forall st st' cap Q n,
  match_loop x L st = Some st' -> qview cap (m_q st) Q n ->
  0 <= m_rem_base st -> 0 <= m_rem_quote st ->
  exists acts rest,
    L = map fst acts ++ rest /\
    run x (m_rem_base st) (m_rem_quote st) (m_dropped st) (m_limit st) acts
          (m_rem_base st') (m_rem_quote st') (m_dropped st') (m_limit st') /\
    stopped x rest (m_rem_base st') (m_rem_quote st') (m_limit st') (m_post st) (m_post st') /\
    m_dec_quote st' = m_dec_quote st + sum_dec x acts /\
    m_change st' = m_change st ++ map (fun y => (fst (fst y), l_key (snd (fst y)), snd y)) (flat_map act_change acts) /\
    m_delete st' = m_delete st ++ map (fun y => (fst y, l_key (snd y))) (flat_map act_delete acts) /\
    qview cap (m_q st') (Q ++ act_events x n acts) (n + Z.of_nat (length (act_events x n acts))).
Proof.
  induction L as [|i L IH]; intros Hok st st' cap Q n HL HQ Hb Hq.
  - cbn [match_loop] in HL. injection HL as <-. exists [], [].
    split; [reflexivity|]. split; [constructor|]. split; [left; split; [reflexivity|left; reflexivity]|].
    cbn. rewrite !app_nil_r, !Z.add_0_r. auto.
  - inversion Hok as [|? ? Hi Hok']; subst. specialize (IH Hok'). destruct Hi as [Hp Hqty].
    cbn [match_loop] in HL.
    unfold match_step in HL.
    assert (Hstop : forall st2 : mstate, st2 = st ->
       forall (HR : m_rem_base st = 0 \/ m_rem_quote st = 0 \/
         (item_valid i = true /\
         (is_price_within_limit (o_side (x_order x)) (it_price i) (x_price x) = false \/
         (is_post_only (x_order x) = false /\ (0 < m_limit st)%nat /\ m_rem_quote st < it_price i)))),
       exists acts rest,
    i :: L = map fst acts ++ rest /\
    run x (m_rem_base st) (m_rem_quote st) (m_dropped st) (m_limit st) acts
          (m_rem_base st2) (m_rem_quote st2) (m_dropped st2) (m_limit st2) /\
    stopped x rest (m_rem_base st2) (m_rem_quote st2) (m_limit st2) (m_post st) (m_post st2) /\
    m_dec_quote st2 = m_dec_quote st + sum_dec x acts /\
    m_change st2 = m_change st ++ map (fun y => (fst (fst y), l_key (snd (fst y)), snd y)) (flat_map act_change acts) /\
    m_delete st2 = m_delete st ++ map (fun y => (fst y, l_key (snd y))) (flat_map act_delete acts) /\
    qview cap (m_q st2) (Q ++ act_events x n acts) (n + Z.of_nat (length (act_events x n acts)))).
    { intros st2 -> HR. exists [], (i :: L). split; [reflexivity|]. split; [constructor|].
      split. { left. split; [reflexivity|]. right. exists i, L. split; [reflexivity|]. exact HR. }
      cbn. rewrite !app_nil_r, !Z.add_0_r. auto. }
    destruct (Z.eqb_spec (m_rem_base st) 0) as [E1|E1]; cbn [orb] in HL.
    { injection HL as <-. apply Hstop; auto. }
    destruct (Z.eqb_spec (m_rem_quote st) 0) as [E2|E2].
    { injection HL as <-. apply Hstop; auto. }
    destruct (item_valid i) eqn:Ev; cbn [negb] in HL.
    2:{ destruct (Nat.ltb_spec (m_dropped st) DROP_EXPIRED_ORDER_LIMIT) as [E3|E3].
      - destruct (push (m_q st) _) as [q'|] eqn:Epush; [|discriminate].
        pose proof (push_view _ _ _ _ _ _ HQ Epush) as HQ'.
        destruct (IH _ _ cap _ _ HL HQ' Hb Hq) as (acts & rest & H1 & H2 & H3 & H4 & H5 & H6 & H7).
        cbn [m_rem_base m_rem_quote m_dec_quote m_change m_delete m_dropped m_q m_limit m_post] in *.
        exists ((i, ADrop) :: acts), rest. split; [cbn; f_equal; exact H1|].
        split; [constructor; auto; lia|]. split; [exact H3|].
        cbn [sum_dec fold_right flat_map act_change act_delete app map act_events act_event length fst snd] in *.
        unfold fq at 1. cbn [snd]. rewrite Z.mul_0_l.
        split; [destruct (own x i); cbn [sum_dec] in *; exact H4|].
        split; [exact H5|]. split; [rewrite H6, <- app_assoc; reflexivity|].
        rewrite <- (qview_seq _ _ _ _ HQ) at 1. rewrite (qview_seq _ _ _ _ HQ) in *.
        change (Z.of_nat 1) with 1. rewrite <- app_assoc in H7. cbn [app] in H7.
        replace (n + Z.of_nat (S (length (act_events x (n + 1) acts))))
          with (n + 1 + Z.of_nat (length (act_events x (n + 1) acts))) by lia. exact H7.
      - destruct (IH _ _ cap _ _ HL HQ Hb Hq) as (acts & rest & H1 & H2 & H3 & H4 & H5 & H6 & H7).
        exists ((i, ASkip) :: acts), rest. split; [cbn; f_equal; exact H1|].
        split; [constructor; auto; lia|]. split; [exact H3|].
        cbn [sum_dec fold_right flat_map act_change act_delete app map act_events act_event length fst snd] in *.
        unfold fq at 1. cbn [snd]. rewrite Z.mul_0_l. change (Z.of_nat 0) with 0. rewrite Z.add_0_r.
        split; [destruct (own x i); exact H4|]. auto. }
    destruct (is_price_within_limit (o_side (x_order x)) (it_price i) (x_price x)) eqn:Ew; cbn [negb] in HL.
    2:{ injection HL as <-. apply Hstop; [reflexivity|]. right; right. auto. }
    destruct (is_post_only (x_order x) || Nat.eqb (m_limit st) 0) eqn:Epo.
    { injection HL as <-. exists [], (i :: L). split; [reflexivity|]. split; [constructor|].
      split.
      { right. cbn. split; [reflexivity|]. split; [lia|]. split; [lia|]. exists i, L.
        split; [reflexivity|]. split; [exact Ev|]. split; [exact Ew|].
        apply orb_true_iff in Epo as [Epo|Epo]; [left; exact Epo|right; apply Nat.eqb_eq, Epo]. }
      cbn. rewrite !app_nil_r, !Z.add_0_r. auto. }
    apply orb_false_iff in Epo as [Epo Elim]. apply Nat.eqb_neq in Elim.
    assert (Hquot : Z.quot (m_rem_quote st) (it_price i) = m_rem_quote st / it_price i)
      by (apply Z.quot_div_nonneg; lia).
    rewrite Hquot in HL.
    pose proof (Z.div_mod (m_rem_quote st) (it_price i) ltac:(lia)) as Hdm.
    pose proof (Z.mod_pos_bound (m_rem_quote st) (it_price i) ltac:(lia)) as Hmb.
    set (k := m_rem_quote st / it_price i) in *.
    destruct (Z.eqb_spec k 0) as [E3|E3].
    { injection HL as <-. apply Hstop; [reflexivity|]. right; right. split; [reflexivity|]. right. split; [exact Epo|].
      split; [lia|]. rewrite E3 in Hdm. lia. }
    assert (Hk : 0 < k). { assert (0 <= k) by (apply Z.div_pos; lia). lia. }
    clearbody k.
    set (mb := Z.min (Z.min (m_rem_base st) (l_quantity (it_leaf i))) k) in *.
    assert (Hmbr : 0 < mb <= qty i /\ mb <= m_rem_base st /\ mb <= k).
    { unfold mb, qty in *. lia. }
    destruct Hmbr as (Hmb1 & Hmb2 & Hmb3).
    assert (Hfillgo : (own x i = true -> o_stb (x_order x) = DecrementTake) ->
      match push (m_q st) (make_fill x i (x_pk x =? l_owner (it_leaf i)) (l_quantity (it_leaf i) - mb =? 0) mb (q_seq (m_q st))) with
          | None => None
          | Some q' =>
              match_loop x L (mkM (m_rem_base st - mb) (m_rem_quote st - mb * it_price i)
                    (if x_pk x =? l_owner (it_leaf i) then m_dec_quote st + mb * it_price i else m_dec_quote st)
                    (if l_quantity (it_leaf i) - mb =? 0 then m_change st else m_change st ++ [(it_pegged i, l_key (it_leaf i), l_quantity (it_leaf i) - mb)])
                    (if l_quantity (it_leaf i) - mb =? 0 then m_delete st ++ [(it_pegged i, l_key (it_leaf i))] else m_delete st)
                    (m_dropped st) q' (m_limit st - 1) (m_post st))
          end = Some st' -> exists acts rest,
    i :: L = map fst acts ++ rest /\
    run x (m_rem_base st) (m_rem_quote st) (m_dropped st) (m_limit st) acts
          (m_rem_base st') (m_rem_quote st') (m_dropped st') (m_limit st') /\
    stopped x rest (m_rem_base st') (m_rem_quote st') (m_limit st') (m_post st) (m_post st') /\
    m_dec_quote st' = m_dec_quote st + sum_dec x acts /\
    m_change st' = m_change st ++ map (fun y => (fst (fst y), l_key (snd (fst y)), snd y)) (flat_map act_change acts) /\
    m_delete st' = m_delete st ++ map (fun y => (fst y, l_key (snd y))) (flat_map act_delete acts) /\
    qview cap (m_q st') (Q ++ act_events x n acts) (n + Z.of_nat (length (act_events x n acts)))).
    { intros Hown HL2. clear HL.
      destruct (push (m_q st) _) as [q'|] eqn:Epush; [|discriminate].
      pose proof (push_view _ _ _ _ _ _ HQ Epush) as HQ'.
      assert (Hle : mb * it_price i <= m_rem_quote st) by nia.
      destruct (IH _ _ cap _ _ HL2 HQ') as (acts & rest & H1 & H2 & H3 & H4 & H5 & H6 & H7);
        cbn [m_rem_base m_rem_quote m_dec_quote m_change m_delete m_dropped m_q m_limit m_post] in *; [lia|lia|].
      exists ((i, AFill mb) :: acts), rest. split; [cbn; f_equal; exact H1|].
      split.
      { constructor; auto; try lia. unfold qty in *. intros Hlt.
        destruct (Z.eq_dec mb (m_rem_base st)) as [Eb|Eb]; [left; congruence|right].
        assert (mb = k) as -> by (unfold mb in *; lia). nia. }
      split; [exact H3|].
      cbn [sum_dec fold_right flat_map act_change act_delete app map act_events act_event length fst snd] in *.
      unfold fq at 1. cbn [snd]. unfold qty.
      split. { rewrite H4. fold (own x i). destruct (own x i); unfold sum_dec; lia. }
      split. { rewrite H5. destruct (l_quantity (it_leaf i) - mb =? 0); cbn [app map fst snd]; [reflexivity|].
               rewrite <- app_assoc. reflexivity. }
      split. { rewrite H6. destruct (l_quantity (it_leaf i) - mb =? 0); cbn [app map fst snd]; [|reflexivity].
               rewrite <- app_assoc. reflexivity. }
      rewrite (qview_seq _ _ _ _ HQ) in H7. fold (own x i) in H7.
      change (Z.of_nat 1) with 1. rewrite <- app_assoc in H7. cbn [app] in H7.
      replace (n + Z.of_nat (S (length (act_events x (n + 1) acts))))
        with (n + 1 + Z.of_nat (length (act_events x (n + 1) acts))) by lia. exact H7. }
    destruct (x_pk x =? l_owner (it_leaf i)) eqn:Eown.
    2:{ apply Hfillgo; [unfold own; congruence|].
        destruct (push (m_q st) _) as [q'|]; exact HL. }
    destruct (o_stb (x_order x)) eqn:Estb.
    { apply Hfillgo; [reflexivity|]. destruct (push (m_q st) _) as [q'|]; exact HL. }
    2: discriminate.
    clear Hfillgo.
    destruct (push (m_q st) _) as [q'|] eqn:Epush; [|discriminate].
    pose proof (push_view _ _ _ _ _ _ HQ Epush) as HQ'.
    destruct (IH _ _ cap _ _ HL HQ' Hb Hq) as (acts & rest & H1 & H2 & H3 & H4 & H5 & H6 & H7).
    cbn [m_rem_base m_rem_quote m_dec_quote m_change m_delete m_dropped m_q m_limit m_post] in *.
    exists ((i, ACancel) :: acts), rest. split; [cbn; f_equal; exact H1|].
    split; [constructor; auto; try lia; nia|]. split; [exact H3|].
    cbn [sum_dec fold_right flat_map act_change act_delete app map act_events act_event length fst snd] in *.
    unfold fq at 1. cbn [snd]. rewrite Z.mul_0_l.
    split; [destruct (own x i); cbn [sum_dec] in *; exact H4|].
    split; [exact H5|]. split; [rewrite H6, <- app_assoc; reflexivity|].
    rewrite (qview_seq _ _ _ _ HQ) in *.
    change (Z.of_nat 1) with 1. rewrite <- app_assoc in H7. cbn [app] in H7.
    replace (n + Z.of_nat (S (length (act_events x (n + 1) acts))))
      with (n + 1 + Z.of_nat (length (act_events x (n + 1) acts))) by lia. exact H7.
Qed.
