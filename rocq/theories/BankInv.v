(** Invariants of token histories. *)
From Coq Require Import List ZArith Lia Bool.
From Verif Require Import OrderTree Keys Fixed PerpTypes Interest InterestFacts Bank BankFacts BankSystem BankSpec.
Import ListNotations.
Open Scope Z_scope.

Lemma bank_op_spec b p o b' p' act paid : index_ok b -> 0 <= b_lof b -> bank_op b p o = Some (b', p', act, paid) ->
  moved b b' p p' /\ (act = false -> t_ix p' = 0) /\
  - fone < pv b (t_ix p') - pv b (t_ix p) + (b_dust b' - b_dust b + (b_fees b' - b_fees b) - paid) * fone /\
  pv b (t_ix p') - pv b (t_ix p) + (b_dust b' - b_dust b + (b_fees b' - b_fees b) - paid) * fone < Z.max (b_di b) (b_bi b).
Proof.
  intros Hok Hl H. pose proof fone_pos as Hf.
  assert (W : forall x wf d now b' p' r, withdraw_internal b p x wf d now = Some (b', p', r) ->
    moved b b' p p' /\ (w_active r = false -> t_ix p' = 0) /\
    - fone < pv b (t_ix p') - pv b (t_ix p) + (b_dust b' - b_dust b + (b_fees b' - b_fees b) - (- x)) * fone /\
    pv b (t_ix p') - pv b (t_ix p) + (b_dust b' - b_dust b + (b_fees b' - b_fees b) - (- x)) * fone < Z.max (b_di b) (b_bi b)).
  { intros x wf d now b1 p1 r E. apply withdraw_spec in E; [|assumption..].
    destruct E as (_ & M & _ & _ & Ef & _ & _ & _ & E0 & E1 & E2 & _).
    split; [exact M|]. split; [intros h; apply E0 in h; tauto|]. rewrite Ef. lia. }
  assert (D : forall x d now b' p' act, deposit_internal b p x d now = Some (b', p', act) ->
    moved b b' p p' /\ (act = false -> t_ix p' = 0) /\
    - fone < pv b (t_ix p') - pv b (t_ix p) + (b_dust b' - b_dust b + (b_fees b' - b_fees b) - x) * fone /\
    pv b (t_ix p') - pv b (t_ix p) + (b_dust b' - b_dust b + (b_fees b' - b_fees b) - x) * fone < Z.max (b_di b) (b_bi b)).
  { intros x d now b1 p1 a1 E. apply deposit_spec in E; [|assumption..].
    destruct E as (_ & M & Ef & _ & _ & E0 & E1 & E2 & _).
    split; [exact M|]. split; [intros h; apply E0 in h; tauto|]. rewrite Ef. lia. }
  destruct o as [x d now|x wf d now|y now|now|x fee d now]; unfold bank_op in H.
  - destruct d.
    + unfold deposit_with_dusting in H. destruct (deposit_internal b p x true now) as [[[b1 p1] a1]|] eqn:E; [|discriminate].
      injection H as <- <- <- <-. apply D in E as (M & E0 & E1). split; [exact M|]. split; [|exact E1].
      intros h. apply orb_false_iff in h as [h _]. auto.
    + unfold deposit in H. destruct (deposit_internal b p x _ now) as [[[b1 p1] a1]|] eqn:E; [|discriminate].
      injection H as <- <- <- <-. apply D in E. exact E.
  - destruct wf; [|destruct d].
    + unfold withdraw_with_fee in H. destruct (withdraw_internal b p x _ _ now) as [[[b1 p1] r]|] eqn:E; [|discriminate].
      injection H as <- <- <- <-. apply W in E. exact E.
    + unfold withdraw_without_fee_with_dusting in H.
      destruct (withdraw_internal b p x _ _ now) as [[[b1 p1] r]|] eqn:E; [|discriminate].
      injection H as <- <- <- <-. apply W in E as (M & E0 & E1). split; [exact M|]. split; [|exact E1].
      intros h. apply orb_false_iff in h as [h _]. auto.
    + unfold withdraw_without_fee in H.
      destruct (withdraw_internal b p x _ _ now) as [[[b1 p1] r]|] eqn:E; [|discriminate].
      injection H as <- <- <- <-. apply W in E. exact E.
  - unfold withdraw_loan_origination_fee in H. set (fee := fmul (b_lof b) y) in *.
    set (b0 := set_totals b (b_dep b) (b_bor b) (b_dust b) (b_fees b + fee)) in *.
    destruct (withdraw_internal b0 p fee _ _ now) as [[[b1 p1] r]|] eqn:E; [|discriminate].
    injection H as <- <- <- <-. cbn [w_active]. apply withdraw_spec in E; [|exact Hok|exact Hl].
    destruct E as (_ & M & _ & _ & Ef & E3 & _ & _ & E0 & E1 & E2 & _).
    cbn [andb] in E3. rewrite E3 in *.
    split; [destruct M; constructor; assumption|]. split; [intros h; apply E0 in h; tauto|].
    change (b_fees b0) with (b_fees b + fee) in Ef. change (b_dust b0) with (b_dust b) in *.
    change (pv b0) with (pv b) in *. change (b_di b0) with (b_di b) in *. change (b_bi b0) with (b_bi b) in *. lia.
  - unfold dust_if_possible in H.
    assert (K : Some (b, p, true) = Some (b', p', act) -> paid = 0 -> moved b b' p p' /\ (act = false -> t_ix p' = 0) /\
      - fone < pv b (t_ix p') - pv b (t_ix p) + (b_dust b' - b_dust b + (b_fees b' - b_fees b) - paid) * fone /\
      pv b (t_ix p') - pv b (t_ix p) + (b_dust b' - b_dust b + (b_fees b' - b_fees b) - paid) * fone < Z.max (b_di b) (b_bi b)).
    { intros [= <- <- <-] ->. split; [mv|]. split; [discriminate|]. destruct Hok. lia. }
    destruct (in_use p).
    + injection H as <- <- <- <-. apply K; reflexivity.
    + destruct (_ && _).
      * unfold withdraw_without_fee in H. destruct (withdraw_internal b p 0 _ _ now) as [[[b1 p1] r]|] eqn:E; [|discriminate].
        injection H as <- <- <- <-. apply W in E. exact E.
      * injection H as <- <- <- <-. apply K; reflexivity.
  - destruct (Z.leb_spec 0 fee) as [Hfee|]; cbn [guard] in H; [|discriminate].
    set (b0 := set_totals b (b_dep b) (b_bor b) (b_dust b) (b_fees b + fee)) in *.
    assert (KW : forall d1 b1 p1 r, withdraw_internal b0 p (- (x - fee)) false d1 now = Some (b1, p1, r) ->
      moved b b1 p p1 /\ (w_active r = false -> t_ix p1 = 0) /\
      - fone < pv b (t_ix p1) - pv b (t_ix p) + (b_dust b1 - b_dust b + (b_fees b1 - b_fees b) - x) * fone /\
      pv b (t_ix p1) - pv b (t_ix p) + (b_dust b1 - b_dust b + (b_fees b1 - b_fees b) - x) * fone < Z.max (b_di b) (b_bi b)).
    { intros d1 b1 p1 r E. apply withdraw_spec in E; [|exact Hok|exact Hl].
      destruct E as (_ & M & _ & _ & Ef & E3 & _ & _ & E0 & E1 & E2 & _).
      cbn [andb] in E3. rewrite E3 in *.
      split; [destruct M; constructor; assumption|]. split; [intros h; apply E0 in h; tauto|].
      change (b_fees b0) with (b_fees b + fee) in Ef. change (b_dust b0) with (b_dust b) in *.
      change (pv b0) with (pv b) in *. change (b_di b0) with (b_di b) in *. change (b_bi b0) with (b_bi b) in *. lia. }
    assert (KD : forall d1 b1 p1 a1, deposit_internal b0 p (x - fee) d1 now = Some (b1, p1, a1) ->
      moved b b1 p p1 /\ (a1 = false -> t_ix p1 = 0) /\
      - fone < pv b (t_ix p1) - pv b (t_ix p) + (b_dust b1 - b_dust b + (b_fees b1 - b_fees b) - x) * fone /\
      pv b (t_ix p1) - pv b (t_ix p) + (b_dust b1 - b_dust b + (b_fees b1 - b_fees b) - x) * fone < Z.max (b_di b) (b_bi b)).
    { intros d1 b1 p1 a1 E. apply deposit_spec in E; [|exact Hok].
      destruct E as (_ & M & Ef & _ & _ & E0 & E1 & E2 & _).
      split; [destruct M; constructor; assumption|]. split; [intros h; apply E0 in h; tauto|].
      change (b_fees b0) with (b_fees b + fee) in Ef. change (b_dust b0) with (b_dust b) in *.
      change (pv b0) with (pv b) in *. change (b_di b0) with (b_di b) in *. change (b_bi b0) with (b_bi b) in *. lia. }
    destruct (0 <=? x - fee); destruct d.
    + unfold deposit_with_dusting in H. destruct (deposit_internal b0 p _ true now) as [[[b1 p1] a1]|] eqn:E; [|discriminate].
      injection H as <- <- <- <-. apply KD in E as (M & E0 & E1). split; [exact M|]. split; [|exact E1].
      intros h. apply orb_false_iff in h as [h _]. auto.
    + unfold deposit in H. destruct (deposit_internal b0 p _ _ now) as [[[b1 p1] a1]|] eqn:E; [|discriminate].
      injection H as <- <- <- <-. apply KD in E. exact E.
    + unfold withdraw_without_fee_with_dusting in H.
      destruct (withdraw_internal b0 p _ _ _ now) as [[[b1 p1] r]|] eqn:E; [|discriminate].
      injection H as <- <- <- <-. apply KW in E as (M & E0 & E1). split; [exact M|]. split; [|exact E1].
      intros h. apply orb_false_iff in h as [h _]. auto.
    + unfold withdraw_without_fee in H.
      destruct (withdraw_internal b0 p _ _ _ now) as [[[b1 p1] r]|] eqn:E; [|discriminate].
      injection H as <- <- <- <-. apply KW in E. exact E.
Qed.

(** ** lists *)
Lemma sum_set_nth {A} (f : A -> Z) l k x y : nth_error l k = Some x ->
  sum_z f (set_nth l k y) = sum_z f l - f x + f y.
Proof.
  revert k. induction l as [|a l IH]; intros [|k] H; cbn in *; try discriminate.
  - injection H as ->. lia.
  - specialize (IH k H). unfold sum_z in *. lia.
Qed.
Lemma in_set_nth {A} (l : list A) k (y : A) z : In z (set_nth l k y) -> In z l \/ z = y.
Proof.
  revert k. induction l as [|a l IH]; intros [|k] H; cbn in *; try tauto.
  - destruct H as [<-|H]; auto.
  - destruct H as [<-|H]; auto. apply IH in H as [H|H]; auto.
Qed.
Definition sum_pos (f : Z -> Z) (l : list (Z * tpos)) : Z := fold_right (fun e t => f (t_ix (snd e)) + t) 0 l.
Lemma sum_pos_set f l a p q : pos_get l a = Some p -> sum_pos f (pos_set l a q) = sum_pos f l - f (t_ix p) + f (t_ix q).
Proof.
  induction l as [|[a' r] l IH]; cbn; [discriminate|]. destruct (a' =? a).
  - intros [= ->]. cbn. lia.
  - intros H. cbn. specialize (IH H). unfold sum_pos in *. lia.
Qed.
Lemma sum_pos_del f l a p : pos_get l a = Some p -> sum_pos f (pos_del l a) = sum_pos f l - f (t_ix p).
Proof.
  induction l as [|[a' r] l IH]; cbn; [discriminate|]. destruct (a' =? a).
  - intros [= ->]. cbn. lia.
  - intros H. cbn. specialize (IH H). unfold sum_pos in *. lia.
Qed.
Lemma put_back_sum f l a p q act close l' : f 0 = 0 -> (act = false -> t_ix q = 0) -> pos_get l a = Some p ->
  put_back l a q act close = Some l' -> sum_pos f l' = sum_pos f l - f (t_ix p) + f (t_ix q).
Proof.
  intros F0 Ha Hg. unfold put_back. destruct close.
  - destruct (negb act && _) eqn:E; cbn [guard]; [|discriminate]. intros [= <-].
    apply andb_prop in E as [E _]. apply negb_true_iff in E. rewrite (Ha E), F0, (sum_pos_del f l a p Hg). lia.
  - intros [= <-]. apply sum_pos_set. exact Hg.
Qed.
Lemma sum_pos_nonneg f l : (forall x, 0 <= f x) -> 0 <= sum_pos f l.
Proof. intros H. induction l as [|e l IH]; cbn; [lia|]. specialize (H (t_ix (snd e))). fold (sum_pos f l). lia. Qed.

Definition P (x : Z) : Z := Z.max x 0.
Definition N (x : Z) : Z := Z.max (- x) 0.

Definition good_bank (b : bank) : Prop := index_ok b /\ 0 <= b_lof b /\ ipar_valid (b_par b) = true.
Record tinv (s : tstate) : Prop := {
  ti_dep : sum_z b_dep (ts_banks s) = sum_pos P (ts_pos s);
  ti_bor : sum_z b_bor (ts_banks s) = sum_pos N (ts_pos s);
  ti_ok : forall b, In b (ts_banks s) -> good_bank b }.

Lemma moved_good b b' p p' : moved b b' p p' -> good_bank b -> good_bank b'.
Proof. intros [] ([A B] & C & D). unfold good_bank, index_ok. repeat split; congruence || lia. Qed.

Lemma sum_map {A B} (f : B -> Z) (g : A -> B) h l : (forall x, f (g x) = h x) -> sum_z f (map g l) = sum_z h l.
Proof. intros H. induction l as [|x l IH]; cbn; [reflexivity|]. fold (sum_z f (map g l)). fold (sum_z h l). rewrite H, IH. reflexivity. Qed.
Lemma sum_app {A} (f : A -> Z) l l' : sum_z f (l ++ l') = sum_z f l + sum_z f l'.
Proof. induction l as [|x l IH]; cbn; [reflexivity|]. fold (sum_z f (l ++ l')) (sum_z f l). rewrite IH. lia. Qed.

(** ** index update *)
Lemma update_index_inv banks now banks' : update_index banks now = Some banks' ->
  exists b0 rest r, banks = b0 :: rest /\ b_upd b0 <= now /\
    compute_index (b_par b0) (b_di b0) (b_bi b0) (sum_z b_dep banks) (sum_z b_bor banks)
      (Z.min (now - b_upd b0) 3600) = Some r /\
    banks' = set_index b0 (r_di r) (r_bi r) (b_fees b0 + r_fees r) now :: all_index rest (r_di r) (r_bi r) now.
Proof.
  unfold update_index. destruct banks as [|b0 rest]; [discriminate|].
  destruct (Z.leb_spec (b_upd b0) now) as [Hn|]; cbn [guard]; [|discriminate].
  destruct (compute_index _ _ _ _ _ _) as [r|] eqn:E; [|discriminate].
  cbn [all_index map]. intros H. apply some_inj in H. subst banks'. exists b0, rest, r. repeat split; try assumption.
Qed.

(** ** socialized losses *)
Lemma credit_inv banks ndi p left act now banks' p' act' :
  (forall b, In b banks -> good_bank b) -> 0 < ndi ->
  (act = false -> t_ix p = 0) ->
  credit_banks banks ndi p left act now = Some (banks', p', act') ->
  (forall b, In b banks' -> good_bank b) /\ (act' = false -> t_ix p' = 0) /\
  sum_z b_dep banks' - sum_z b_dep banks = P (t_ix p') - P (t_ix p) /\
  sum_z b_bor banks' - sum_z b_bor banks = N (t_ix p') - N (t_ix p).
Proof.
  intros Hg Hn. revert p left act banks' p' act'.
  induction banks as [|b rest IH]; intros p left act banks' p' act' Ha H; cbn [credit_banks] in H.
  - injection H as <- <- <-. split; [auto|]. split; [auto|]. lia.
  - set (b0 := set_index b ndi (b_bi b) (b_fees b) (b_upd b)) in *.
    assert (Hg0 : good_bank b0).
    { destruct (Hg b (or_introl eq_refl)) as ([A1 A2] & A3 & A4). repeat split; assumption. }
    assert (Hgr : forall x, In x rest -> good_bank x) by (intros; apply Hg; right; assumption).
    specialize (IH Hgr).
    destruct (0 <? Z.min left (native_borrows b0)) eqn:Em.
    + destruct (deposit_with_dusting b0 p _ now) as [[[b1 p1] a1]|] eqn:E; [|discriminate].
      assert (Eo : bank_op b0 p (BDeposit (Z.min left (native_borrows b0)) true now) = Some (b1, p1, a1, Z.min left (native_borrows b0))).
      { cbn [bank_op]. rewrite E. reflexivity. }
      apply bank_op_spec in Eo; [|apply Hg0..]. destruct Eo as (M & A & _).
      pose proof (moved_good _ _ _ _ M Hg0) as G1.
      destruct M as [M1 M2 _ _ _ _ _ _ _ _ _ _ _ _ _ _]. change (b_dep b0) with (b_dep b) in M1. change (b_bor b0) with (b_bor b) in M2.
      destruct (left - _ <=? 0).
      * injection H as <- <- <-. split; [intros x [<-|Hx]; [exact G1|auto]|]. split; [exact A|].
        cbn [sum_z fold_right]. fold (sum_z b_dep rest) (sum_z b_bor rest). unfold P, N. lia.
      * destruct (credit_banks rest ndi p1 _ a1 now) as [[[rest' p2] a2]|] eqn:E2; [|discriminate].
        injection H as <- <- <-. apply IH in E2; [|exact A]. destruct E2 as (G & A' & S1 & S2).
        split; [intros x [<-|Hx]; [exact G1|auto]|]. split; [exact A'|].
        cbn [sum_z fold_right]. fold (sum_z b_dep rest) (sum_z b_bor rest) (sum_z b_dep rest') (sum_z b_bor rest').
        unfold P, N in *. lia.
    + destruct (credit_banks rest ndi p _ act now) as [[[rest' p2] a2]|] eqn:E2; [|discriminate].
      injection H as <- <- <-. apply IH in E2; [|exact Ha]. destruct E2 as (G & A' & S1 & S2).
      split; [intros x [<-|Hx]; [exact Hg0|auto]|]. split; [exact A'|].
      cbn [sum_z fold_right]. fold (sum_z b_dep rest) (sum_z b_bor rest) (sum_z b_dep rest') (sum_z b_bor rest').
      change (b_dep b0) with (b_dep b). change (b_bor b0) with (b_bor b). lia.
Qed.

Lemma socialize_inv banks k p loss now banks' p' act : socialize banks k p loss now = Some (banks', p', act) ->
  0 < loss /\ exists b0, nth_error banks k = Some b0 /\ sum_z b_dep banks <> 0 /\ t_ix p' = 0 /\
    credit_banks banks (b_di b0 - fdiv loss (sum_z b_dep banks)) p loss true now = Some (banks', p', act).
Proof.
  unfold socialize. destruct (Z.ltb_spec 0 loss); cbn [guard]; [|discriminate].
  destruct (nth_error banks k) as [b0|]; [|discriminate].
  destruct (cdiv _ _) as [q|] eqn:E; [|discriminate]. apply cdiv_inv in E as [-> E].
  destruct (credit_banks _ _ _ _ _ _) as [[[bs p1] a1]|] eqn:E1; [|discriminate].
  destruct (Z.eqb_spec (t_ix p1) 0); cbn [guard]; [|discriminate].
  intros H1. injection H1 as <- <- <-. split; [assumption|]. exists b0. repeat split; assumption.
Qed.

Lemma soc_index_pos loss dep di : 0 < loss -> 0 <= dep -> dep <> 0 -> loss * fone < dep * di ->
  0 < di - fdiv loss dep.
Proof. intros. pose proof (fdiv_pos_bounds loss dep ltac:(lia) ltac:(lia)). nia. Qed.

Definition step_covered (s : tstate) (o : top) : Prop :=
  match o with
  | TSocialize _ _ loss _ _ => forall b, In b (ts_banks s) -> loss * fone < lent s * b_di b
  | _ => True
  end.

Lemma lent_P s : lent s = sum_pos P (ts_pos s). Proof. reflexivity. Qed.
Lemma borrowed_N s : borrowed s = sum_pos N (ts_pos s). Proof. reflexivity. Qed.
Lemma P_nonneg x : 0 <= P x. Proof. unfold P. lia. Qed.
Lemma N_nonneg x : 0 <= N x. Proof. unfold N. lia. Qed.

Theorem tinv_step s o s' : tinv s -> step_covered s o -> tstep s o = Some s' -> tinv s'.
Proof.
  intros I Hc H. pose proof I as [I1 I2 I3]. destruct o as [k a op close|a|a n|now|e reset|k n|k|k a loss now close|k vault|k n]; cbn [tstep] in H.
  - destruct (nth_error (ts_banks s) k) as [b|] eqn:Eb; [|discriminate].
    destruct (pos_get (ts_pos s) a) as [p|] eqn:Ep; [|discriminate].
    destruct (bank_op b p op) as [[[[b1 p1] a1] paid]|] eqn:Eo; [|discriminate].
    destruct (put_back _ _ _ _ _) as [l|] eqn:El; [|discriminate]. injection H as <-.
    pose proof (I3 b (nth_error_In _ _ Eb)) as G. apply bank_op_spec in Eo; [|apply G..].
    destruct Eo as (M & A & _). pose proof (moved_good _ _ _ _ M G) as G1.
    constructor; cbn [ts_banks ts_pos].
    + rewrite (sum_set_nth _ _ _ _ _ Eb), (put_back_sum P _ _ _ _ _ _ _ eq_refl A Ep El), I1.
      destruct M as [M1 _]. unfold P. lia.
    + rewrite (sum_set_nth _ _ _ _ _ Eb), (put_back_sum N _ _ _ _ _ _ _ eq_refl A Ep El), I2.
      destruct M as [_ M2]. unfold N. lia.
    + intros x Hx. apply in_set_nth in Hx as [Hx| ->]; auto.
  - destruct (pos_get (ts_pos s) a); [discriminate|]. injection H as <-.
    constructor; cbn [ts_banks ts_pos sum_pos fold_right]; auto.
  - destruct (pos_get (ts_pos s) a) as [p|] eqn:Ep; [|discriminate]. injection H as <-.
    constructor; cbn [ts_banks ts_pos]; [rewrite (sum_pos_set P _ _ _ _ Ep)|rewrite (sum_pos_set N _ _ _ _ Ep)|]; cbn [t_ix]; auto; lia.
  - destruct (update_index _ now) as [banks|] eqn:E; [|discriminate]. injection H as <-.
    apply update_index_inv in E as (b0 & rest & r & Eb & Hn & Er & ->).
    pose proof (I3 b0 ltac:(rewrite Eb; left; reflexivity)) as G. destruct G as ([G1 G2] & G3 & G4).
    apply compute_index_facts in Er; [|exact G4|exact G1|exact G2| | |].
    2: { rewrite I1. apply sum_pos_nonneg, P_nonneg. }
    2: { rewrite I2. apply sum_pos_nonneg, N_nonneg. }
    2: { lia. }
    destruct Er as (R1 & R2 & _). rewrite Eb in *.
    constructor; cbn [ts_banks ts_pos].
    + rewrite <- I1. cbn [sum_z fold_right]. fold (sum_z b_dep (all_index rest (r_di r) (r_bi r) now)) (sum_z b_dep rest).
      unfold all_index. rewrite (sum_map b_dep _ b_dep) by reflexivity. reflexivity.
    + rewrite <- I2. cbn [sum_z fold_right]. fold (sum_z b_bor (all_index rest (r_di r) (r_bi r) now)) (sum_z b_bor rest).
      unfold all_index. rewrite (sum_map b_bor _ b_bor) by reflexivity. reflexivity.
    + intros x [<-|Hx]; [repeat split; cbn; lia || assumption|].
      unfold all_index in Hx. apply in_map_iff in Hx as (y & <- & Hy).
      destruct (I3 y (or_intror Hy)) as (_ & Y1 & Y2). repeat split; cbn; lia || assumption.
  - destruct (Z.leb_spec 0 (b_lof e)) as [Hl|]; cbn [andb guard] in H; [|discriminate].
    destruct (ipar_valid (b_par e)) eqn:Ev; cbn [guard] in H; [|discriminate]. injection H as <-.
    constructor; cbn [ts_banks ts_pos]; [rewrite (sum_map b_dep _ b_dep) by reflexivity; exact I1|
      rewrite (sum_map b_bor _ b_bor) by reflexivity; exact I2|].
    intros x Hx. apply in_map_iff in Hx as (y & <- & Hy). destruct (I3 y Hy) as ([Y1 Y2] & _). repeat split; assumption.
  - destruct (nth_error (ts_banks s) k) as [b|] eqn:Eb; [|discriminate]. injection H as <-.
    constructor; cbn [ts_banks ts_pos]; [rewrite (sum_set_nth _ _ _ _ _ Eb); cbn [b_dep set_serum]; lia|
      rewrite (sum_set_nth _ _ _ _ _ Eb); cbn [b_bor set_serum]; lia|].
    intros x Hx. apply in_set_nth in Hx as [Hx| ->]; [auto|]. exact (I3 b (nth_error_In _ _ Eb)).
  - destruct (nth_error (ts_banks s) k) as [b|] eqn:Eb; [|discriminate]. injection H as <-.
    constructor; cbn [ts_banks ts_pos]; [rewrite sum_app; cbn; lia|rewrite sum_app; cbn; lia|].
    intros x Hx. apply in_app_iff in Hx as [Hx|[<-|[]]]; [auto|]. exact (I3 b (nth_error_In _ _ Eb)).
  - destruct (pos_get (ts_pos s) a) as [p|] eqn:Ep; [|discriminate].
    destruct (socialize _ k p loss now) as [[[banks p1] a1]|] eqn:E; [|discriminate].
    destruct (put_back _ _ _ _ _) as [l|] eqn:El; [|discriminate]. injection H as <-.
    apply socialize_inv in E as (Hl & b0 & Eb & Hd & _ & E).
    cbn [step_covered] in Hc. specialize (Hc b0 (nth_error_In _ _ Eb)). rewrite lent_P, <- I1 in Hc.
    apply credit_inv in E; [|exact I3| |discriminate].
    2: { apply soc_index_pos; [exact Hl| |exact Hd|exact Hc]. rewrite I1. apply sum_pos_nonneg, P_nonneg. }
    destruct E as (G & A & S1 & S2).
    constructor; cbn [ts_banks ts_pos].
    + rewrite (put_back_sum P _ _ _ _ _ _ _ eq_refl A Ep El). lia.
    + rewrite (put_back_sum N _ _ _ _ _ _ _ eq_refl A Ep El). lia.
    + exact G.
  - destruct (nth_error (ts_banks s) k) as [b|] eqn:Eb; [|discriminate].
    destruct (0 <=? vault); cbn [guard] in H; [|discriminate].
    destruct (withdraw_fees b vault) as [[b1 am]|] eqn:Ew; [|discriminate]. injection H as <-.
    unfold withdraw_fees in Ew. destruct (0 <=? _) in Ew; cbn [guard] in Ew; [|discriminate]. injection Ew as <- _.
    constructor; cbn [ts_banks ts_pos]; [rewrite (sum_set_nth _ _ _ _ _ Eb); cbn [b_dep set_fw]; lia|
      rewrite (sum_set_nth _ _ _ _ _ Eb); cbn [b_bor set_fw]; lia|].
    intros x Hx. apply in_set_nth in Hx as [Hx| ->]; [auto|]. exact (I3 b (nth_error_In _ _ Eb)).
  - destruct (nth_error (ts_banks s) k) as [b|] eqn:Eb; [|discriminate].
    destruct (0 <=? n); cbn [guard] in H; [|discriminate]. injection H as <-.
    constructor; cbn [ts_banks ts_pos]; [rewrite (sum_set_nth _ _ _ _ _ Eb); cbn [b_dep set_totals]; lia|
      rewrite (sum_set_nth _ _ _ _ _ Eb); cbn [b_bor set_totals]; lia|].
    intros x Hx. apply in_set_nth in Hx as [Hx| ->]; [auto|]. exact (I3 b (nth_error_In _ _ Eb)).
Qed.

Lemma tinv_new s : new_token s -> tinv s.
Proof.
  intros (Hp & _ & b & Hb & F). unfold fresh_bank in F. decompose [and] F.
  constructor; rewrite ?Hp, ?Hb; cbn [sum_z sum_pos fold_right]; [lia|lia|].
  intros x [<-|[]]. pose proof fone_pos. repeat split; try assumption; lia.
Qed.

Theorem tinv_run ops : forall s s', tinv s -> losses_covered s ops -> trun s ops = Some s' -> tinv s'.
Proof.
  induction ops as [|o ops IH]; intros s s' I Hc H; cbn [trun losses_covered] in *.
  - injection H as <-. exact I.
  - destruct (tstep s o) as [s1|] eqn:E; [|discriminate]. destruct Hc as [Hc1 Hc2].
    apply (IH s1 s'); [|exact Hc2|exact H]. eapply tinv_step; [exact I| |exact E]. exact Hc1.
Qed.
