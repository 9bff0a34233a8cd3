(** All banks of a token carry the same indexes, unless a loss is socialized. *)
From Coq Require Import List ZArith Lia Bool.
From Verif Require Import Fixed Interest InterestFacts Bank BankFacts BankSystem BankSpec BankInv.
Import ListNotations.
Open Scope Z_scope.

Definition same_index (s : tstate) : Prop :=
  forall b b', In b (ts_banks s) -> In b' (ts_banks s) -> b_di b = b_di b' /\ b_bi b = b_bi b'.
Definition socializes (o : top) : bool := match o with TSocialize _ _ _ _ _ => true | _ => false end.

Lemma set_nth_same (l : list bank) k b b1 : nth_error l k = Some b -> b_di b1 = b_di b -> b_bi b1 = b_bi b ->
  (forall x y, In x l -> In y l -> b_di x = b_di y /\ b_bi x = b_bi y) ->
  forall x y, In x (set_nth l k b1) -> In y (set_nth l k b1) -> b_di x = b_di y /\ b_bi x = b_bi y.
Proof.
  intros Hk E1 E2 H x y Hx Hy. pose proof (nth_error_In _ _ Hk) as Hb.
  apply in_set_nth in Hx, Hy. destruct Hx as [Hx| ->], Hy as [Hy| ->].
  - auto.
  - rewrite E1, E2. auto.
  - rewrite E1, E2. auto.
  - auto.
Qed.

Lemma same_index_step s o s' : tinv s -> same_index s -> socializes o = false -> tstep s o = Some s' -> same_index s'.
Proof.
  intros [_ _ I3] I Hn H. destruct o as [k a op close|a|a n|now|e reset|k n|k|k a loss now close|k vault|k n]; cbn [tstep] in H.
  - destruct (nth_error (ts_banks s) k) as [b|] eqn:Eb; [|discriminate].
    destruct (pos_get (ts_pos s) a) as [p|] eqn:Ep; [|discriminate].
    destruct (bank_op b p op) as [[[[b1 p1] a1] paid]|] eqn:Eo; [|discriminate].
    destruct (put_back _ _ _ _ _) as [l|] eqn:El; [|discriminate]. injection H as <-.
    pose proof (I3 b (nth_error_In _ _ Eb)) as G. apply bank_op_spec in Eo; [|apply G..].
    destruct Eo as ([_ _ _ M4 M5 _ _ _ _ _ _ _ _ _ _ _] & _). unfold same_index. cbn [ts_banks].
    eapply set_nth_same; eassumption.
  - destruct (pos_get (ts_pos s) a); [discriminate|]. injection H as <-. exact I.
  - destruct (pos_get (ts_pos s) a); [|discriminate]. injection H as <-. exact I.
  - destruct (update_index _ now) as [banks|] eqn:E; [|discriminate]. injection H as <-.
    apply update_index_inv in E as (b0 & rest & r & Eb & _ & _ & ->). unfold same_index. cbn [ts_banks].
    assert (K : forall x, In x (set_index b0 (r_di r) (r_bi r) (b_fees b0 + r_fees r) now :: all_index rest (r_di r) (r_bi r) now) ->
      b_di x = r_di r /\ b_bi x = r_bi r).
    { intros x [<-|Hx]; [split; reflexivity|]. unfold all_index in Hx. apply in_map_iff in Hx as (y & <- & _). split; reflexivity. }
    intros x y Hx Hy. apply K in Hx as [-> ->]. apply K in Hy as [-> ->]. auto.
  - destruct (_ && _); cbn [guard] in H; [|discriminate]. injection H as <-. unfold same_index. cbn [ts_banks].
    intros x y Hx Hy. apply in_map_iff in Hx as (x' & <- & Hx). apply in_map_iff in Hy as (y' & <- & Hy). exact (I x' y' Hx Hy).
  - destruct (nth_error (ts_banks s) k) as [b|] eqn:Eb; [|discriminate]. injection H as <-. unfold same_index. cbn [ts_banks].
    eapply set_nth_same; [exact Eb|reflexivity|reflexivity|exact I].
  - destruct (nth_error (ts_banks s) k) as [b|] eqn:Eb; [|discriminate]. injection H as <-. unfold same_index. cbn [ts_banks].
    pose proof (nth_error_In _ _ Eb) as Hb.
    intros x y Hx Hy. apply in_app_iff in Hx, Hy. destruct Hx as [Hx|[<-|[]]], Hy as [Hy|[<-|[]]]; cbn [from_existing b_di b_bi]; auto.
  - discriminate.
  - destruct (nth_error (ts_banks s) k) as [b|] eqn:Eb; [|discriminate].
    destruct (0 <=? vault); cbn [guard] in H; [|discriminate].
    destruct (withdraw_fees b vault) as [[b1 am]|] eqn:Ew; [|discriminate]. injection H as <-.
    unfold withdraw_fees in Ew. destruct (0 <=? _) in Ew; cbn [guard] in Ew; [|discriminate]. injection Ew as <- _.
    unfold same_index. cbn [ts_banks]. eapply set_nth_same; [exact Eb|reflexivity|reflexivity|exact I].
  - destruct (nth_error (ts_banks s) k) as [b|] eqn:Eb; [|discriminate].
    destruct (0 <=? n); cbn [guard] in H; [|discriminate]. injection H as <-.
    unfold same_index. cbn [ts_banks]. eapply set_nth_same; [exact Eb|reflexivity|reflexivity|exact I].
Qed.

Lemma same_index_run ops : forall s s', tinv s -> same_index s -> (forall o, In o ops -> socializes o = false) ->
  trun s ops = Some s' -> same_index s'.
Proof.
  induction ops as [|o ops IH]; intros s s' I Hs Ho H; cbn [trun] in H.
  - injection H as <-. exact Hs.
  - destruct (tstep s o) as [s1|] eqn:E; [|discriminate].
    pose proof (Ho o (or_introl eq_refl)) as Hn.
    assert (C : step_covered s o) by (destruct o; try exact I0; try discriminate; exact Logic.I).
    eapply (IH s1); [eapply tinv_step; eassumption|eapply same_index_step; eassumption|intros; apply Ho; right; assumption|exact H].
Qed.
