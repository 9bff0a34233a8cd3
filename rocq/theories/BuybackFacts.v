(** Proofs for C34. *)
From Coq Require Import List ZArith Lia Bool Sorted.
From Verif Require Import Fixed Buyback BuybackSpec.
Import ListNotations.
Open Scope Z_scope.

Lemma total_app l1 l2 : total (l1 ++ l2) = total l1 + total l2.
Proof. induction l1 as [|[t x] l1 IH]; cbn [total app]; [reflexivity|]. rewrite IH. ring. Qed.
Definition nonneg (l : list lot) : Prop := forall p, In p l -> 0 <= snd p.
Lemma nonneg_cons p l : nonneg (p :: l) <-> 0 <= snd p /\ nonneg l.
Proof.
  unfold nonneg. split.
  - intros H. split; [apply H; left; reflexivity|intros; apply H; right; assumption].
  - intros [H1 H2] q [<-|Hq]; [exact H1|exact (H2 q Hq)].
Qed.
Lemma total_nonneg l : nonneg l -> 0 <= total l.
Proof. induction l as [|[t x] l IH]; cbn [total]; [lia|]. rewrite nonneg_cons. cbn [snd]. intros [? ?]. apply IH in H0. lia. Qed.
Lemma total_filter g l : nonneg l -> total (filter g l) <= total l.
Proof.
  induction l as [|[t x] l IH]; cbn [total filter]; [lia|]. rewrite nonneg_cons. cbn [snd]. intros [? H]. apply IH in H.
  destruct (g (t, x)); cbn [total]; lia.
Qed.
Lemma nonneg_filter g l : nonneg l -> nonneg (filter g l).
Proof. intros H p Hp. apply filter_In in Hp. apply H, Hp. Qed.
Lemma use_app a l1 l2 : 0 <= a -> nonneg l1 -> use_oldest a (l1 ++ l2) =
  if total l1 <=? a then use_oldest (a - total l1) l2 else use_oldest a l1 ++ l2.
Proof.
  revert a. induction l1 as [|[t x] l1 IH]; intros a Ha; cbn [total use_oldest app]; intros H.
  - destruct (Z.leb_spec 0 a); [rewrite Z.sub_0_r; reflexivity|lia].
  - apply nonneg_cons in H. destruct H as [Hx H]. cbn [snd] in Hx. pose proof (total_nonneg _ H).
    destruct (Z.leb_spec x a).
    + rewrite IH by (assumption || lia). destruct (Z.leb_spec (total l1) (a - x)), (Z.leb_spec (x + total l1) a); try lia; [|reflexivity].
      f_equal. lia.
    + destruct (Z.leb_spec (x + total l1) a); [lia|]. reflexivity.
Qed.
Lemma use_all a l : 0 <= a -> nonneg l -> total l <= a -> use_oldest a l = [].
Proof. intros. rewrite <- (app_nil_r l), use_app by assumption. destruct (Z.leb_spec (total l) a); [reflexivity|lia]. Qed.
Lemma use_total a l : 0 <= a -> nonneg l -> a <= total l -> total (use_oldest a l) = total l - a.
Proof.
  revert a. induction l as [|[t x] l IH]; intros a; cbn [total use_oldest]; intros Ha H Hl; [lia|].
  apply nonneg_cons in H. destruct H as [Hx H]. cbn [snd] in Hx.
  destruct (Z.leb_spec x a); [rewrite IH by (assumption || lia)|cbn [total]]; lia.
Qed.
Lemma use_in a l p : In p (use_oldest a l) -> exists q, In q l /\ fst q = fst p.
Proof.
  revert a. induction l as [|[t x] l IH]; intros a; cbn [use_oldest]; [intros []|]. destruct (x <=? a).
  - intros H. apply IH in H. destruct H as (q & Hq & E). exists q. split; [right; exact Hq|exact E].
  - intros [<-|H]; [exists (t, x); split; [left; reflexivity|reflexivity]|exists p; split; [right; exact H|reflexivity]].
Qed.
Lemma use_nonneg a l : nonneg l -> nonneg (use_oldest a l).
Proof.
  revert a. induction l as [|[t x] l IH]; intros a; cbn [use_oldest]; [intros H; exact H|].
  intros H. apply nonneg_cons in H. destruct H as [Hx H]. destruct (Z.leb_spec x a); [apply IH, H|].
  apply nonneg_cons. cbn [snd]. split; [lia|exact H].
Qed.
(** sorted by time *)
Inductive sorted : list lot -> Prop :=
| sorted_nil : sorted []
| sorted_cons p l : (forall q, In q l -> fst p <= fst q) -> sorted l -> sorted (p :: l).
Lemma sorted_filter g l : sorted l -> sorted (filter g l).
Proof.
  induction 1 as [|p l Hp Hl IH]; cbn [filter]; [constructor|]. destruct (g p); [|exact IH]. constructor; [|exact IH].
  intros q Hq. apply filter_In in Hq. apply Hp, Hq.
Qed.
Lemma sorted_snoc l t a : sorted l -> (forall q, In q l -> fst q <= t) -> sorted (l ++ [(t, a)]).
Proof.
  induction 1 as [|p l Hp Hl IH]; intros H; cbn [app].
  - constructor; [intros q []|constructor].
  - constructor; [|apply IH; intros; apply H; right; assumption]. intros q Hq. apply in_app_or in Hq.
    destruct Hq as [Hq|[<-|[]]]; [apply Hp, Hq|apply H; left; reflexivity].
Qed.
Lemma sorted_use a l : sorted l -> sorted (use_oldest a l).
Proof.
  intros H. revert a. induction H as [|[t x] l Hp Hl IH]; intros a; cbn [use_oldest]; [constructor|].
  destruct (x <=? a); [apply IH|]. constructor; [exact Hp|exact Hl].
Qed.

(** the lots earned in one period *)
Definition in_period (I p : Z) (x : lot) : bool := fst x / I =? p.
Definition period_lots (I p : Z) (l : list lot) := filter (in_period I p) l.

Lemma usable_split I now l : 0 < I -> sorted l -> (forall x, In x l -> fst x <= now) ->
  usable_lots I now l = period_lots I (now / I - 1) l ++ period_lots I (now / I) l.
Proof.
  intros HI. induction 1 as [|p l Hp Hl IH]; intros Hn; [reflexivity|].
  unfold usable_lots, period_lots in *. cbn [filter].
  assert (Hl' : forall x, In x l -> fst x <= now) by (intros; apply Hn; right; assumption).
  specialize (IH Hl'). pose proof (Hn p (or_introl eq_refl)) as Hpn.
  pose proof (Z.div_le_mono (fst p) now I HI Hpn) as Hd.
  unfold usable, in_period in *. fold (in_period I (now / I - 1)) in *.
  destruct (Z.leb_spec (now / I) (fst p / I + 1)), (Z.eqb_spec (fst p / I) (now / I - 1)), (Z.eqb_spec (fst p / I) (now / I)); try lia.
  - rewrite IH. reflexivity.
  - rewrite IH.
    assert (E : filter (in_period I (now / I - 1)) l = []).
    { clear IH. induction l as [|q l IHl]; [reflexivity|]. cbn [filter]. inversion_clear Hl.
      pose proof (Hp q (or_introl eq_refl)) as Hq. pose proof (Z.div_le_mono _ _ I HI Hq).
      unfold in_period at 1. destruct (Z.eqb_spec (fst q / I) (now / I - 1)); [lia|].
      apply IHl; try assumption; intros; try apply Hp; try apply Hn; try apply Hl'; cbn [In] in *; tauto. }
    change (filter (in_period I (now / I - 1)) l) with (filter (fun x : lot => fst x / I =? now / I - 1) l) in E. cbn [app] in *. first [rewrite E|change (fun x : lot => fst x / I =? now / I - 1) with (in_period I (now / I - 1)) in *; rewrite E]. reflexivity.
  - exact IH.
Qed.

Record agrees (I tm : Z) (f : bfees) (l : list lot) (p : Z) : Prop := {
  ag_exp : bf_expiry f = (p + 1) * I;
  ag_tm : p * I <= tm;
  ag_per : forall x, In x l -> fst x / I <= p;
  ag_old : forall x, In x l -> fst x <= tm;
  ag_sorted : sorted l;
  ag_nonneg : nonneg l;
  ag_cur : bf_current f = total (period_lots I p l);
  ag_prev : bf_previous f = total (period_lots I (p - 1) l) }.

Lemma filter_none {A} (g : A -> bool) l : (forall x, In x l -> g x = false) -> filter g l = [].
Proof.
  induction l as [|x l IH]; intros H; [reflexivity|]. cbn [filter]. rewrite (H x (or_introl eq_refl)). apply IH.
  intros; apply H; right; assumption.
Qed.
Lemma agrees_new I tm : 0 < I -> 0 <= tm -> agrees I tm bf_new [] (-1).
Proof.
  intros. constructor.
  - reflexivity.
  - lia.
  - intros x [].
  - intros x [].
  - constructor.
  - intros x [].
  - reflexivity.
  - reflexivity.
Qed.

Lemma expire_agrees I tm f l p now f' : 0 < I -> 0 <= now -> agrees I tm f l p -> tm <= now ->
  expire_fees f now I = Some f' -> agrees I now f' l (now / I).
Proof.
  intros HI Hnow0 A Hnow H. destruct A as [E1 E2 E3 E4 E5 E6 E7 E8]. unfold expire_fees in H.
  destruct (Z.eqb_spec I 0); [lia|]. cbn [orb] in H.
  pose proof (Z.div_mod now I). pose proof (Z.mod_pos_bound now I HI).
  assert (Hold : forall x, In x l -> fst x <= now) by (intros x Hx; specialize (E4 x Hx); lia).
  assert (Hple : p <= now / I) by (apply Z.div_le_lower_bound; lia).
  destruct (Z.ltb_spec now (bf_expiry f)) as [Hlt|Hge].
  - inversion H; subst f'. assert (now / I = p) as Ep.
    { assert (now / I < p + 1); [|lia]. apply Z.div_lt_upper_bound; lia. }
    rewrite Ep. constructor; try assumption; lia.
  - destruct (u64_ok (bf_expiry f + I)) as [lim|] eqn:El; [|discriminate].
    destruct (u64_ok ((now / I + 1) * I)) as [e|] eqn:Ee; [|discriminate].
    unfold u64_ok in El, Ee. destruct ((0 <=? bf_expiry f + I) && (bf_expiry f + I <=? max_u64)); [|discriminate].
    destruct ((0 <=? (now / I + 1) * I) && ((now / I + 1) * I <=? max_u64)); [|discriminate].
    inversion El; inversion Ee; subst lim e. clear El Ee. inversion H; subst f'. clear H.
    assert (Hpl : p < now / I). { apply Z.lt_le_trans with (p + 1); [lia|]. apply Z.div_le_lower_bound; lia. }
    assert (Ecur : period_lots I (now / I) l = []).
    { apply filter_none. intros x Hx. specialize (E3 x Hx). unfold in_period. apply Z.eqb_neq. lia. }
    constructor; cbn [bf_expiry bf_current bf_previous]; try assumption.
    + reflexivity.
    + lia.
    + intros x Hx. specialize (E3 x Hx). lia.
    + rewrite Ecur. reflexivity.
    + destruct (Z.ltb_spec now (bf_expiry f + I)) as [Hl|Hl].
      * assert (now / I < p + 2) by (apply Z.div_lt_upper_bound; lia).
        replace (now / I - 1) with p by lia. exact E7.
      * assert (p + 2 <= now / I) by (apply Z.div_le_lower_bound; lia).
        unfold period_lots. rewrite filter_none; [reflexivity|]. intros x Hx. specialize (E3 x Hx).
        unfold in_period. apply Z.eqb_neq. lia.
Qed.
Lemma agrees_avail I now f l : 0 < I -> agrees I now f l (now / I) ->
  bf_current f + bf_previous f = total (usable_lots I now l).
Proof.
  intros HI A. destruct A as [E1 E2 E3 E4 E5 E6 E7 E8]. rewrite (usable_split I now l) by assumption.
  rewrite total_app, E7, E8. ring.
Qed.
Lemma period_app I p l l' : period_lots I p (l ++ l') = period_lots I p l ++ period_lots I p l'.
Proof. apply filter_app. Qed.
Lemma earn_agrees I now f l a : 0 < I -> 0 <= a -> agrees I now f l (now / I) -> total l + a <= max_u64 ->
  agrees I now (accrue_fees f a) (l ++ [(now, a)]) (now / I).
Proof.
  intros HI Ha A Hm. destruct A as [E1 E2 E3 E4 E5 E6 E7 E8].
  constructor; cbn [accrue_fees bf_expiry bf_current bf_previous]; try assumption.
  - intros x Hx. apply in_app_or in Hx. destruct Hx as [Hx|[<-|[]]]; [apply E3, Hx|cbn [fst]; lia].
  - intros x Hx. apply in_app_or in Hx. destruct Hx as [Hx|[<-|[]]]; [apply E4, Hx|cbn [fst]; lia].
  - apply sorted_snoc; assumption.
  - intros x Hx. apply in_app_or in Hx. destruct Hx as [Hx|[<-|[]]]; [apply E6, Hx|cbn [snd]; lia].
  - rewrite period_app, total_app, <- E7. unfold period_lots at 1. cbn [filter]. unfold in_period at 1. cbn [fst].
    rewrite Z.eqb_refl. cbn [total]. unfold sat_add. pose proof (total_filter (in_period I (now / I)) l E6) as Hf.
    fold (period_lots I (now / I) l) in Hf. rewrite <- E7 in Hf. lia.
  - rewrite period_app, total_app, <- E8. unfold period_lots at 1. cbn [filter]. unfold in_period at 1. cbn [fst].
    destruct (Z.eqb_spec (now / I) (now / I - 1)); [lia|]. cbn [total]. lia.
Qed.
Lemma filter_id {A} (g : A -> bool) l : (forall x, In x l -> g x = true) -> filter g l = l.
Proof.
  induction l as [|x l IH]; intros H; [reflexivity|]. cbn [filter]. rewrite (H x (or_introl eq_refl)). f_equal. apply IH.
  intros; apply H; right; assumption.
Qed.
Lemma period_in I p l x : In x (period_lots I p l) -> fst x / I = p.
Proof. intros H. apply filter_In in H. destruct H as [_ H]. apply Z.eqb_eq, H. Qed.
Lemma period_same I p l : (forall x, In x l -> fst x / I = p) -> period_lots I p l = l.
Proof. intros H. apply filter_id. intros x Hx. apply Z.eqb_eq, H, Hx. Qed.
Lemma period_other I p q l : p <> q -> (forall x, In x l -> fst x / I = q) -> period_lots I p l = [].
Proof. intros Hp H. apply filter_none. intros x Hx. apply Z.eqb_neq. rewrite (H x Hx). lia. Qed.

Lemma spend_agrees I now f l a f' : 0 < I -> 0 <= a -> agrees I now f l (now / I) ->
  reduce_fees f a = Some f' -> agrees I now f' (use_oldest a (usable_lots I now l)) (now / I).
Proof.
  intros HI Ha A H. pose proof A as A0. destruct A as [E1 E2 E3 E4 E5 E6 E7 E8].
  assert (Hin : forall x, In x (use_oldest a (usable_lots I now l)) -> exists y, In y l /\ fst y = fst x).
  { intros x Hx. apply use_in in Hx. destruct Hx as (q & Hq & E). apply filter_In in Hq. exists q. tauto. }
  set (l1 := period_lots I (now / I - 1) l) in *. set (l2 := period_lots I (now / I) l) in *.
  assert (N1 : nonneg l1) by (apply nonneg_filter, E6). assert (N2 : nonneg l2) by (apply nonneg_filter, E6).
  assert (P1 : forall x, In x l1 -> fst x / I = now / I - 1) by (intros x; apply period_in).
  assert (P2 : forall x, In x l2 -> fst x / I = now / I) by (intros x; apply period_in).
  assert (U : use_oldest a (usable_lots I now l) =
              if total l1 <=? a then use_oldest (a - total l1) l2 else use_oldest a l1 ++ l2).
  { rewrite (usable_split I now l) by assumption. apply use_app; assumption. }
  assert (Q2 : forall b x, In x (use_oldest b l2) -> fst x / I = now / I).
  { intros b x Hx. apply use_in in Hx. destruct Hx as (q & Hq & <-). apply P2, Hq. }
  assert (Q1 : forall b x, In x (use_oldest b l1) -> fst x / I = now / I - 1).
  { intros b x Hx. apply use_in in Hx. destruct Hx as (q & Hq & <-). apply P1, Hq. }
  constructor.
  - unfold reduce_fees in H. destruct (bf_previous f <? a); [destruct (_ <=? _); [|discriminate]|]; inversion H; exact E1.
  - lia.
  - intros x Hx. destruct (Hin x Hx) as (y & Hy & <-). apply E3, Hy.
  - intros x Hx. destruct (Hin x Hx) as (y & Hy & <-). apply E4, Hy.
  - apply sorted_use, sorted_filter, E5.
  - apply use_nonneg, nonneg_filter, E6.
  - rewrite U. unfold reduce_fees in H. rewrite E8 in H.
    destruct (Z.ltb_spec (total l1) a), (Z.leb_spec (total l1) a); try lia.
    + destruct (Z.leb_spec (a - total l1) (bf_current f)); [|discriminate]. inversion H; subst f'. cbn [bf_current].
      rewrite period_same by (apply Q2). rewrite use_total by (assumption || lia). lia.
    + inversion H; subst f'. cbn [bf_current]. replace (a - total l1) with 0 by lia.
      rewrite period_same by (apply Q2). rewrite use_total by (try assumption; try lia; apply total_nonneg, N2). lia.
    + inversion H; subst f'. cbn [bf_current]. rewrite period_app.
      rewrite (period_other I (now / I) (now / I - 1)) by (try lia; apply Q1).
      rewrite period_same by exact P2. exact E7.
  - rewrite U. unfold reduce_fees in H. rewrite E8 in H.
    destruct (Z.ltb_spec (total l1) a), (Z.leb_spec (total l1) a); try lia.
    + destruct (Z.leb_spec (a - total l1) (bf_current f)); [|discriminate]. inversion H; subst f'. cbn [bf_previous].
      rewrite (period_other I (now / I - 1) (now / I)) by (try lia; apply Q2). reflexivity.
    + inversion H; subst f'. cbn [bf_previous].
      rewrite (period_other I (now / I - 1) (now / I)) by (try lia; apply Q2). cbn [total]. lia.
    + inversion H; subst f'. cbn [bf_previous]. rewrite period_app.
      rewrite (period_same I (now / I - 1)) by apply Q1. rewrite (period_other I (now / I - 1) (now / I)) by (try lia; apply P2).
      rewrite app_nil_r, use_total by (assumption || lia). reflexivity.
Qed.
Lemma spend_possible I now f l a : 0 < I -> 0 <= a -> agrees I now f l (now / I) ->
  (exists f', reduce_fees f a = Some f') <-> a <= total (usable_lots I now l).
Proof.
  intros HI Ha A. rewrite <- (agrees_avail I now f l HI A).
  pose proof (ag_cur _ _ _ _ _ A) as Hc. pose proof (total_nonneg _ (nonneg_filter (in_period I (now / I)) l (ag_nonneg _ _ _ _ _ A))).
  unfold period_lots in Hc. rewrite <- Hc in H.
  unfold reduce_fees. destruct (Z.ltb_spec (bf_previous f) a).
  - destruct (Z.leb_spec (a - bf_previous f) (bf_current f)).
    + split; [intros _; lia|]. intros _. eexists; reflexivity.
    + split; [intros (? & ?); discriminate|lia].
  - split; [intros _; lia|]. intros _. eexists; reflexivity.
Qed.
Lemma usable_total_le I now l a : 0 <= a -> nonneg l -> total (use_oldest a (usable_lots I now l)) <= total l.
Proof.
  intros Ha N. unfold usable_lots. set (g := fun p : lot => usable I now (fst p)).
  change (total (use_oldest a (filter g l)) <= total l).
  pose proof (total_filter g l N) as T. pose proof (nonneg_filter g l N) as N'.
  destruct (Z.le_gt_cases a (total (filter g l))) as [L|L].
  - rewrite (use_total a (filter g l) Ha N' L). lia.
  - rewrite (use_all a (filter g l) Ha N') by lia. cbn. apply total_nonneg, N.
Qed.
Lemma run_agrees I os : 0 < I -> forall tm f l p f', 0 <= tm -> agrees I tm f l p -> orderly tm os ->
  total l + earned os <= max_u64 -> bf_run I f os = Some f' ->
  exists p', agrees I (fold_left (fun _ o => op_time o) os tm) f' (fold_left (ledger_step I) os l) p'.
Proof.
  intros HI. induction os as [|o os IH]; intros tm f l p f' Htm A O Hm H; cbn [bf_run fold_left] in *.
  - inversion H; subst. exists p. exact A.
  - destruct O as (O1 & O2 & O3). unfold bf_step in H.
    assert (Ne : 0 <= earned os). { clear -O3. revert O3. generalize (op_time o). clear o. induction os as [|o os IH]; intros t O; cbn [earned]; [lia|].
      destruct O as (? & ? & O). specialize (IH _ O). destruct o; cbn [op_amount] in *; lia. }
    destruct o as [now a|now a]; cbn [op_time op_amount earned ledger_step] in *;
      (destruct (expire_fees f now I) as [f1|] eqn:Ex; [|discriminate]);
      pose proof (expire_agrees I tm f l p now f1 HI (Z.le_trans _ _ _ Htm O1) A O1 Ex) as A1.
    + refine (IH now _ _ (now / I) f' _ (earn_agrees I now f1 l a HI O2 A1 _) O3 _ H); try lia.
      rewrite total_app. cbn [total]. lia.
    + destruct (reduce_fees f1 a) as [f2|] eqn:Er; [|discriminate].
      refine (IH now _ _ (now / I) f' _ (spend_agrees I now f1 l a f2 HI O2 A1 Er) O3 _ H); try lia.
      pose proof (usable_total_le I now l a O2 (ag_nonneg _ _ _ _ _ A1)). lia.
Qed.
