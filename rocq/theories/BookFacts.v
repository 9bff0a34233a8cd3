(** Consequences of the summary [placed] in terms of the vocabulary of BookSpec.v. *)
From Coq Require Import List ZArith Lia Bool Arith Permutation Sorted.
From Verif Require Import OrderTree OrderTreeSpec KeyBits OrderTreeRep BookArena BookArenaProofs
  BookArenaFacts Keys Fixed BookSide BookSideSpec BookSideProofs BookSideView BookSideWorst EventQueue PerpTypes Book
  BookLoop BookApply BookPlace BookSpec.
Import ListNotations.
Open Scope Z_scope.

Lemma resting_view sd cap bk b : view sd cap (bk_get sd bk) b -> resting sd bk = all b.
Proof. intros [_ H]. unfold resting. rewrite (H false), (H true). reflexivity. Qed.

Lemma book_ok_view cap seq bk sd : book_ok cap seq bk ->
  exists b, view sd cap (bk_get sd bk) b /\ all b = resting sd bk /\ side_ok sd seq b.
Proof.
  intros H. destruct (H sd) as (Hr & Hf & Hq & _). destruct (view_exists _ _ _ Hr) as [b Hv].
  pose proof (resting_view _ _ _ _ Hv) as E. exists b. split; [exact Hv|]. split; [symmetry; exact E|].
  rewrite E in Hf, Hq. split; [|exact Hq]. apply Forall_forall. intros l Hl. apply Hf. apply in_all. exact Hl.
Qed.

Lemma qview_fun cap q L n L' n' : qview cap q L n -> qview cap q L' n' -> L = L' /\ n = n'.
Proof.
  intros H H'. split.
  - pose proof (q_iter_ok _ _ _ H) as E. rewrite (q_iter_ok _ _ _ H') in E. injection E as ->. reflexivity.
  - rewrite <- (qview_seq _ _ _ _ H). apply (qview_seq _ _ _ _ H').
Qed.

Lemma oc_placed cap capq bk o mk q oracle a pk now limit r ol Q new n n' :
  order_call cap capq bk o mk q oracle a pk now limit r ol Q new n n' ->
  exists bo bs price pd id x acts rest es rb rq d lm post' U bo' removed R bs' p2 post,
    placed cap cap capq bk o mk q oracle a pk now limit r bo bs Q n
      ol price pd id x acts rest es rb rq d lm post' U bo' removed R bs' p2 post /\
    all bo = resting (negb (o_side o)) bk /\ all bs = resting (o_side o) bk /\
    all bo' = resting (negb (o_side o)) (r_book r) /\ all bs' = resting (o_side o) (r_book r) /\
    new = act_events x n acts ++ out_events (o_side o) now (n + Z.of_nat (length (act_events x n acts))) removed /\
    side_ok (negb (o_side o)) (mk_seq mk) bo /\ side_ok (o_side o) (mk_seq mk) bs.
Proof.
  intros [Hrun Hwf Hcl Hs Hb HQ HQ' Hol].
  destruct (book_ok_view _ _ _ (negb (o_side o)) Hb) as (bo & Hvo & Eo & Hoo).
  destruct (book_ok_view _ _ _ (o_side o) Hb) as (bs & Hvs & Es & Hos).
  destruct (new_order_placed _ _ _ _ _ _ _ _ _ _ _ _ _ _ _ _ _ Hrun Hwf Hcl Hs Hvo Hoo Hvs Hos HQ)
    as (ol' & price & pd & id & x & acts & rest & es & rb & rq & d & lm & post' & U & bo' & removed & R & bs' & p2 & post & HP).
  assert (ol' = ol) as ->. { destruct (pl_ol _ _ _ _ _ _ _ _ _ _ _ _ _ _ _ _ _ _ _ _ _ _ _ _ _ _ _ _ _ _ _ _ _ _ _ _ _ HP) as [E _]. congruence. }
  exists bo, bs, price, pd, id, x, acts, rest, es, rb, rq, d, lm, post', U, bo', removed, R, bs', p2, post.
  split; [exact HP|]. split; [exact Eo|]. split; [exact Es|].
  split; [symmetry; eapply resting_view; apply HP|]. split; [symmetry; eapply resting_view; apply HP|].
  split; [|split; assumption].
  pose proof (pl_q _ _ _ _ _ _ _ _ _ _ _ _ _ _ _ _ _ _ _ _ _ _ _ _ _ _ _ _ _ _ _ _ _ _ _ _ _ HP) as H.
  destruct (qview_fun _ _ _ _ _ _ HQ' H) as [E _]. apply app_inv_head in E. exact E.
Qed.

(** *** fills of a run *)
Definition mkf (x : mctx) (seq : Z) (i : item) (q : Z) : fill :=
  match make_fill x i (own x i) (qty i - q =? 0) q seq with EFill f => f | EOut _ => mkFill Bid false 0 0 0 0 0 0 0 0 0 0 0 0 0 end.
Lemma mkf_eq x seq i q : make_fill x i (own x i) (qty i - q =? 0) q seq = EFill (mkf x seq i q).
Proof. reflexivity. Qed.

Lemma fills_app A B : fills (A ++ B) = fills A ++ fills B.
Proof. apply flat_map_app. Qed.
Lemma fills_out sd now L : forall seq, fills (out_events sd now seq L) = [].
Proof. induction L; intros; cbn; auto. Qed.

Definition fills_with (x : mctx) (f : fill) (ia : aitem) : Prop :=
  exists q seq, snd ia = AFill q /\ f = mkf x seq (fst ia) q.
Lemma fills_acts x : forall acts n,
  Forall2 (fills_with x) (fills (act_events x n acts)) (filter is_fill acts).
Proof.
  induction acts as [|[i a] acts IH]; intros n; [constructor|].
  cbn [act_events act_event filter]. unfold is_fill at 1. cbn [snd].
  destruct a as [| | |q]; cbn [app length].
  1-3: apply IH.
  rewrite mkf_eq. cbn [fills flat_map app]. constructor; [|apply IH].
  exists q, n. auto.
Qed.
Lemma fills_acts_split x : forall acts n F1 f F2, fills (act_events x n acts) = F1 ++ f :: F2 ->
  exists A1 i q A2 m m', acts = A1 ++ (i, AFill q) :: A2 /\ F1 = fills (act_events x n A1) /\
    f = mkf x m i q /\ F2 = fills (act_events x m' A2).
Proof.
  induction acts as [|[i a] acts IH]; intros n F1 f F2 H.
  - destruct F1; discriminate.
  - cbn [act_events] in H. rewrite fills_app in H.
    assert (Hskip : fills (act_event x n (i, a)) = [] -> exists A1 i0 q A2 m m',
       (i, a) :: acts = A1 ++ (i0, AFill q) :: A2 /\ F1 = fills (act_events x n A1) /\ f = mkf x m i0 q /\ F2 = fills (act_events x m' A2)).
    { intros E. rewrite E in H. cbn [app] in H. destruct (IH _ _ _ _ H) as (A1 & i0 & q & A2 & m & m' & -> & H1 & H2 & H3).
      exists ((i, a) :: A1), i0, q, A2, m, m'. split; [reflexivity|]. split; [|auto].
      cbn [act_events]. rewrite fills_app, E. exact H1. }
    destruct a as [| | |q]; [apply Hskip; reflexivity..|]. clear Hskip.
    cbn [act_event] in H. rewrite mkf_eq in H. cbn [fills flat_map app length] in H.
    destruct F1 as [|f1 F1].
    + cbn [app] in H. injection H as <- <-. exists [], i, q, acts, n, (n + Z.of_nat 1). auto.
    + cbn [app] in H. injection H as <- H. destruct (IH _ _ _ _ H) as (A1 & i0 & q0 & A2 & m & m' & -> & H1 & H2 & H3).
      exists ((i, AFill q) :: A1), i0, q0, A2, m, m'. split; [reflexivity|]. split; [|auto].
      cbn [act_events act_event]. rewrite mkf_eq. cbn [fills flat_map app length]. f_equal. exact H1.
Qed.

Lemma fills_base x : forall acts n, fill_base (fills (act_events x n acts)) = sum_base acts /\
  fill_quote (fills (act_events x n acts)) = sum_quote acts /\
  length (fills (act_events x n acts)) = length (filter is_fill acts).
Proof.
  unfold fill_base, fill_quote, sum_base, sum_quote.
  induction acts as [|[i a] acts IH]; intros n; [cbn; auto|].
  assert (Ef : fq (i, a) = match a with AFill q => q | _ => 0 end) by reflexivity.
  cbn [act_events fold_right fst]. rewrite Ef. rewrite fills_app, !map_app.
  unfold is_fill at 1; cbn [filter snd].
  destruct (IH (n + Z.of_nat (length (act_event x n (i, a))))) as (H1 & H2 & H3).
  set (F := fills (act_events x (n + Z.of_nat (length (act_event x n (i, a)))) acts)) in *. clearbody F.
  destruct a as [| | |q]; cbn [act_event fills flat_map app length map make_fill sumZ fold_right out_of_leaf] in *;
    unfold sumZ in *; cbn [fold_right]; rewrite H1, H2; cbn [f_qty f_price]; try rewrite H3; repeat split; lia.
Qed.

(** quote traded with other accounts *)
Lemma fills_dec x : forall acts n,
  fill_quote (filter (fun f => negb (f_maker f =? x_pk x)) (fills (act_events x n acts))) = sum_quote acts - sum_dec x acts.
Proof.
  unfold fill_quote, sum_quote, sum_dec.
  induction acts as [|[i a] acts IH]; intros n; [reflexivity|].
  assert (Ef : fq (i, a) = match a with AFill q => q | _ => 0 end) by reflexivity.
  cbn [act_events fold_right fst]. rewrite Ef. rewrite fills_app, filter_app, map_app.
  specialize (IH (n + Z.of_nat (length (act_event x n (i, a))))).
  set (F := fills (act_events x (n + Z.of_nat (length (act_event x n (i, a)))) acts)) in *. clearbody F.
  destruct a as [| | |q]; cbn [act_event fills flat_map app length map filter make_fill out_of_leaf f_maker] in *;
    [destruct (own x i); lia..|].
  rewrite (Z.eqb_sym (l_owner (it_leaf i))). fold (own x i). unfold sumZ in *.
  destruct (own x i); cbn [negb app map fold_right f_price f_qty] in *; lia.
Qed.

(** *** runs *)
Lemma run_app x A : forall B rb rq d lm rb' rq' d' lm', run x rb rq d lm (A ++ B) rb' rq' d' lm' ->
  exists rb1 rq1 d1 lm1, run x rb rq d lm A rb1 rq1 d1 lm1 /\ run x rb1 rq1 d1 lm1 B rb' rq' d' lm'.
Proof.
  induction A as [|ia A IH]; intros B rb rq d lm rb' rq' d' lm' H.
  - exists rb, rq, d, lm. split; [constructor|exact H].
  - cbn [app] in H. inversion H; subst;
      match goal with HR : run _ _ _ _ _ (A ++ B) _ _ _ _ |- _ =>
        destruct (IH _ _ _ _ _ _ _ _ _ HR) as (rb1 & rq1 & d1 & lm1 & K1 & K2) end;
      exists rb1, rq1, d1, lm1; (split; [econstructor; eauto|exact K2]).
Qed.
Lemma run_in x rb rq d lm L rb' rq' d' lm' : run x rb rq d lm L rb' rq' d' lm' -> forall i a, In (i, a) L ->
  match a with
  | ASkip | ADrop => item_valid i = false
  | ACancel => item_valid i = true /\ own x i = true /\ o_stb (x_order x) = CancelProvide /\ is_post_only (x_order x) = false
  | AFill q => item_valid i = true /\ 0 < q <= qty i /\ is_post_only (x_order x) = false /\
      is_price_within_limit (o_side (x_order x)) (it_price i) (x_price x) = true /\
      (own x i = true -> o_stb (x_order x) = DecrementTake)
  end.
Proof.
  induction 1; intros i0 a0 HI; [destruct HI|..]; (destruct HI as [EE|HI]; [injection EE as <- <-; auto|apply IHrun, HI]).
Qed.
Lemma run_zero x rb rq d lm L rb' rq' d' lm' : run x rb rq d lm L rb' rq' d' lm' ->
  L <> [] -> 0 < rb /\ 0 < rq.
Proof. destruct 1; [congruence|..]; auto. Qed.

(** *** list facts *)
Lemma ssorted_map {A B} (f : A -> B) (R : B -> B -> Prop) L :
  StronglySorted (fun x y => R (f x) (f y)) L <-> StronglySorted R (map f L).
Proof.
  induction L as [|x L IH]; cbn [map]; [split; constructor|].
  split; intros H; inversion H as [|? ? H1 H2]; subst; constructor; try (apply IH; assumption).
  - rewrite Forall_forall in *. intros y Hy. apply in_map_iff in Hy as (z & <- & Hz). apply H2, Hz.
  - rewrite Forall_forall in *. intros y Hy. apply H2. apply in_map, Hy.
Qed.
Lemma ssorted_app_inv {A} (R : A -> A -> Prop) L1 L2 : StronglySorted R (L1 ++ L2) ->
  StronglySorted R L1 /\ StronglySorted R L2 /\ (forall x y, In x L1 -> In y L2 -> R x y).
Proof.
  induction L1 as [|a L1 IH]; cbn [app]; intros H.
  - split; [constructor|]. split; [exact H|]. intros x y [].
  - inversion H as [|? ? H1 H2]; subst. destruct (IH H1) as (I1 & I2 & I3). rewrite Forall_forall in H2. split.
    + constructor; [exact I1|]. apply Forall_forall. intros y Hy. apply H2, in_or_app; left; exact Hy.
    + split; [exact I2|]. intros x y [<-|Hx] Hy; [apply H2, in_or_app; right; exact Hy|apply I3; assumption].
Qed.

Lemma item_valid_iff sd now ol e : item_valid (item_of sd now ol e) = true <-> matchable sd now ol e.
Proof.
  unfold item_valid. rewrite <- spec_state_valid. unfold item_of. cbn [it_state].
  destruct (spec_state sd now ol e); split; congruence.
Qed.
Lemma live_entries sd now ol b e : live sd now ol e -> In e (all b) -> In e (entries ol (fst b) (snd b)).
Proof.
  intros [_ Hr] He. destruct e as [c l]. apply in_all in He. unfold entries. apply in_or_app.
  destruct c; cbn [get] in He.
  - right. apply in_map. apply filter_In. auto.
  - left. apply in_map. exact He.
Qed.
Lemma within_iff sd p limit : is_price_within_limit sd p limit = true <-> crosses sd limit p.
Proof. unfold is_price_within_limit, crosses. destruct sd; apply Z.leb_le. Qed.
