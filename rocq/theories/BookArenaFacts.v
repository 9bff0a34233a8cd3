(** Facts about reachable book sides, in terms of iteration before and after. *)
From Coq Require Import List ZArith Lia Bool Arith Permutation Sorted.
From Verif Require Import OrderTree OrderTreeSpec BookArena KeyBits OrderTreeRep OrderTreeOps OrderTreeOps2 BookArenaProofs.
Import ListNotations.
Open Scope Z_scope.

Lemma sorted_perm_eq {A} (R : A -> A -> Prop) (Hirr : forall x y, R x y -> R y x -> False) l1 : forall l2,
  StronglySorted R l1 -> StronglySorted R l2 -> Permutation l1 l2 -> l1 = l2.
Proof.
  induction l1 as [|x l1 IH]; intros l2 H1 H2 Hp.
  - apply Permutation_nil in Hp. auto.
  - destruct l2 as [|y l2]; [apply Permutation_sym, Permutation_nil in Hp; discriminate|].
    inversion H1 as [|? ? Hs1 Hf1]; subst. inversion H2 as [|? ? Hs2 Hf2]; subst.
    rewrite Forall_forall in Hf1, Hf2.
    assert (x = y).
    { assert (Hx : In x (y :: l2)) by (eapply Permutation_in; [exact Hp|left; reflexivity]).
      assert (Hy : In y (x :: l1)) by (eapply Permutation_in; [apply Permutation_sym; exact Hp|left; reflexivity]).
      destruct Hx as [|Hx]; [auto|]. destruct Hy as [|Hy]; [auto|].
      exfalso. eapply Hirr; [apply Hf1; exact Hy|apply Hf2; exact Hx]. }
    subst y. f_equal. apply IH; auto. eapply Permutation_cons_inv; exact Hp.
Qed.

Lemma worse_irr bids x y : worse bids y x -> worse bids x y -> False.
Proof. unfold worse; destruct bids; lia. Qed.

Definition reachable (bids : bool) (cap : nat) (s : bookside) : Prop :=
  exists ops outs, Forall op_ok ops /\ bs_run bids (bs_init cap) ops = Some (s, outs).

Lemma reachable_rep bids cap s : reachable bids cap s -> exists b, bsrep cap s b.
Proof.
  intros (ops & outs & Hok & Hrun).
  destruct (bs_run_ok bids cap ops (bs_init cap) ([], []) (bsrep_init cap) Hok) as (s' & xs & b & H1 & H2 & H3).
  exists b. congruence.
Qed.

Lemma without_mid_w bids A l B :
  StronglySorted (fun x y => worse bids y x) (A ++ l :: B) -> without (l_key l) (A ++ l :: B) = A ++ B.
Proof.
  intros HL.
  assert (Hn : forall x, In x (A ++ B) -> l_key x <> l_key l).
  { intros x Hx He. induction A as [|y A IH]; cbn [app] in *.
    - inversion HL as [|? ? _ Hf]; subst. rewrite Forall_forall in Hf. specialize (Hf x Hx).
      unfold worse in Hf. destruct bids; lia.
    - inversion HL as [|? ? Hs Hf]; subst. rewrite Forall_forall in Hf. destruct Hx as [->|Hx]; [|auto].
      specialize (Hf l ltac:(apply in_or_app; right; left; reflexivity)). unfold worse in Hf. destruct bids; lia. }
  rewrite without_app. cbn [without filter]. rewrite Z.eqb_refl. cbn [negb].
  fold (without (l_key l) B). rewrite !without_notin; [reflexivity| |];
    intros x Hx; apply Hn; apply in_or_app; auto.
Qed.

Lemma sorted_ext_mid bids L (k : Z) l L' :
  StronglySorted (fun x y => worse bids y x) L -> In l L -> l_key l = k ->
  StronglySorted (fun x y => worse bids y x) L' -> Permutation L' (without k L) ->
  exists A B, L = A ++ l :: B /\ L' = A ++ B.
Proof.
  intros HL Hin Hk HL' Hp. apply in_split in Hin as (A & B & HA). exists A, B. split; [assumption|].
  assert (Hw : without k L = A ++ B).
  { subst k L. eapply without_mid_w. exact HL. }
  rewrite Hw in Hp. apply (sorted_perm_eq (fun x y => worse bids y x)); auto.
  - intros x y. apply worse_irr.
  - rewrite HA in HL. clear - HL. induction A as [|y A IH]; cbn [app] in *.
    + inversion HL; assumption.
    + inversion HL as [|? ? Hs Hf]; subst. constructor; [auto|].
      rewrite Forall_forall in *. intros z Hz. apply Hf. apply in_app_or in Hz as [H|H]; apply in_or_app; auto.
      right; right; assumption.
Qed.

Lemma orders_other bids cap s s' b b' (c : comp) :
  bsrep cap s b -> bsrep cap s' b' -> get (negb c) b' = get (negb c) b ->
  bs_orders bids s' (negb c) = bs_orders bids s (negb c).
Proof.
  intros H H' He.
  destruct (bs_orders_ok bids cap s b (negb c) H) as (L & H1 & H2 & H3).
  destruct (bs_orders_ok bids cap s' b' (negb c) H') as (L' & H1' & H2' & H3').
  rewrite H1, H1'. f_equal. apply (sorted_perm_eq (fun x y => worse bids y x)); auto.
  - intros x y. apply worse_irr.
  - rewrite H2, H2', He. reflexivity.
Qed.

(** the general shape "exactly one order [l] of component [c] was removed" *)
Definition removed_exactly (bids : bool) (s s' : bookside) (c : comp) (l : leaf) : Prop :=
  (exists A B, bs_orders bids s c = Some (A ++ l :: B) /\ bs_orders bids s' c = Some (A ++ B)) /\
  bs_orders bids s' (negb c) = bs_orders bids s (negb c).
Definition unchanged (bids : bool) (s s' : bookside) : Prop :=
  forall c, bs_orders bids s' c = bs_orders bids s c.

Lemma without_step_removed bids cap s s' b c l :
  bsrep cap s b -> In l (get c b) -> bsrep cap s' (set c (without (l_key l) (get c b)) b) ->
  removed_exactly bids s s' c l.
Proof.
  intros H Hin H'.
  destruct (bs_orders_ok bids cap s b c H) as (L & H1 & H2 & H3).
  destruct (bs_orders_ok bids cap s' _ c H') as (L' & H1' & H2' & H3').
  rewrite get_set_same in H2'. split.
  - rewrite H1, H1'.
    destruct (sorted_ext_mid bids L (l_key l) l L') as (A & B & -> & ->); auto.
    + eapply Permutation_in; [apply Permutation_sym; exact H2|exact Hin].
    + rewrite H2'. apply without_perm. symmetry. exact H2.
    + exists A, B. auto.
  - eapply orders_other; [exact H|exact H'|]. apply get_set_other.
Qed.

Lemma same_unchanged bids cap s s' b : bsrep cap s b -> bsrep cap s' b -> unchanged bids s s'.
Proof.
  intros H H' c. rewrite <- (negb_involutive c). eapply orders_other; [exact H|exact H'|reflexivity].
Qed.

Lemma remove_fact bids cap s c k : reachable bids cap s ->
  exists s' x, bs_step bids s (ORemove c k) = Some (s', OutRemoved x) /\
    match x with
    | Some l => l_key l = k /\ removed_exactly bids s s' c l
    | None => (forall L, bs_orders bids s c = Some L -> absent k L) /\ unchanged bids s s'
    end.
Proof.
  intros Hr. apply reachable_rep in Hr as [b Hb].
  destruct (bs_step_ok bids cap s b (ORemove c k) Hb I) as (s' & x & b' & H1 & H2 & H3).
  inversion H2; subst.
  - exists s', (Some l). split; [assumption|]. split; [reflexivity|].
    eapply without_step_removed; eassumption.
  - exists s', None. split; [assumption|]. split; [|eapply same_unchanged; eassumption].
    intros L HL. destruct (bs_orders_ok bids cap s b' c Hb) as (L' & H1' & H2' & _).
    rewrite HL in H1'. injection H1' as ->. eapply absent_perm; [apply Permutation_sym; exact H2'|assumption].
Qed.

Lemma expired_fact bids cap s c now : reachable bids cap s ->
  exists s' x, bs_step bids s (ORemoveExpired c now) = Some (s', OutRemoved x) /\
    forall L, bs_orders bids s c = Some L ->
    match x with
    | Some l => expiry l < now /\ (forall l', In l' L -> expiry l <= expiry l') /\
                removed_exactly bids s s' c l
    | None => (forall l, In l L -> now <= expiry l) /\ unchanged bids s s'
    end.
Proof.
  intros Hr. apply reachable_rep in Hr as [b Hb].
  destruct (bs_step_ok bids cap s b (ORemoveExpired c now) Hb I) as (s' & x & b' & H1 & H2 & H3).
  destruct (bs_orders_ok bids cap s b c Hb) as (L' & H1' & H2' & _).
  inversion H2; subst.
  - exists s', (Some l). split; [assumption|]. intros L HL. rewrite HL in H1'. injection H1' as ->.
    split; [assumption|]. split.
    + intros l' Hl'. match goal with h : forall l', _ -> expires_at l <= _ |- _ => apply h end.
      eapply Permutation_in; [exact H2'|exact Hl'].
    + eapply without_step_removed; eassumption.
  - exists s', None. split; [assumption|]. intros L HL. rewrite HL in H1'. injection H1' as ->.
    split; [|eapply same_unchanged; eassumption].
    intros l Hl. match goal with h : forall l, _ -> now <= _ |- _ => apply h end.
    eapply Permutation_in; [exact H2'|exact Hl].
Qed.

Lemma worst_fact bids cap s c : reachable bids cap s ->
  exists s' x, bs_step bids s (ORemoveWorst c) = Some (s', OutRemoved x) /\
    match x with
    | Some l => exists L, bs_orders bids s c = Some (L ++ [l]) /\ bs_orders bids s' c = Some L /\
                  bs_orders bids s' (negb c) = bs_orders bids s (negb c)
    | None => bs_orders bids s c = Some [] /\ unchanged bids s s'
    end.
Proof.
  intros Hr. apply reachable_rep in Hr as [b Hb].
  destruct (bs_step_ok bids cap s b (ORemoveWorst c) Hb I) as (s' & x & b' & H1 & H2 & H3).
  destruct (bs_orders_ok bids cap s b c Hb) as (L' & H1' & H2' & H3').
  inversion H2; subst.
  - exists s', (Some l). split; [assumption|].
    assert (Hrm : removed_exactly bids s s' c l) by (eapply without_step_removed; eassumption).
    destruct Hrm as [(A & B & HA & HB) Ho]. exists A.
    assert (B = []).
    { destruct B as [|y B]; [reflexivity|exfalso].
      rewrite H1' in HA. injection HA as ->.
      assert (Hy : In y (get c b)).
      { eapply Permutation_in; [exact H2'|]. apply in_or_app; right; right; left; reflexivity. }
      assert (Hwy : worse bids y l).
      { clear - H3'. induction A as [|z A IH]; cbn [app] in H3'.
        - inversion H3' as [|? ? _ Hf]; subst. rewrite Forall_forall in Hf. apply Hf. left; reflexivity.
        - inversion H3'; auto. }
      match goal with h : forall l', _ -> l' <> l -> _ |- _ => specialize (h y Hy); rename h into Hall end.
      assert (y <> l) as Hne. { intros ->. unfold worse in Hwy; destruct bids; lia. }
      specialize (Hall Hne). unfold worse in *; destruct bids; lia. }
    subst B. rewrite app_nil_r in HB. auto.
  - exists s', None. split; [assumption|]. split; [|eapply same_unchanged; eassumption].
    rewrite H1'. match goal with h : get _ _ = [] |- _ => rewrite h in H2' end.
    apply Permutation_sym, Permutation_nil in H2'. congruence.
Qed.

Lemma insert_not_full bids cap s c l : reachable bids cap s -> leaf_ok l ->
  is_full (bs_arena s) = false ->
  (forall L, bs_orders bids s c = Some L -> absent (l_key l) L) ->
  exists s', bs_step bids s (OInsert c l) = Some (s', OutInserted) /\
    removed_exactly bids s' s c l.
Proof.
  intros Hr Hok Hfull Habs. apply reachable_rep in Hr as [b Hb].
  destruct (bs_step_ok bids cap s b (OInsert c l) Hb Hok) as (s' & x & b' & H1 & H2 & H3).
  destruct (bs_orders_ok bids cap s b c Hb) as (L' & H1' & H2' & H3').
  specialize (Habs L' H1'). pose proof (absent_perm _ _ _ H2' Habs) as Habs'.
  inversion H2; subst.
  - exists s'. split; [assumption|].
    assert (Hw : without (l_key l) (l :: get c b) = get c b).
    { cbn [without filter]. rewrite Z.eqb_refl. cbn [negb]. apply without_notin. assumption. }
    eapply (without_step_removed bids cap s' s (set c (l :: get c b) b) c l); [assumption| |].
    + rewrite get_set_same. left; reflexivity.
    + rewrite get_set_same, Hw. destruct c, b; exact Hb.
  - exfalso. eapply Habs'; eassumption.
  - exfalso. match goal with h : ~ room _ _ _ |- _ => apply h end. apply (not_full_room cap s); assumption.
Qed.

Lemma insert_fact bids cap s c l : reachable bids cap s -> leaf_ok l ->
  exists s' x, bs_step bids s (OInsert c l) = Some (s', x) /\
  match x with
  | OutInserted => removed_exactly bids s' s c l
  | OutReplaced old => l_key old = l_key l /\
      (exists A B, bs_orders bids s c = Some (A ++ old :: B) /\ bs_orders bids s' c = Some (A ++ l :: B)) /\
      bs_orders bids s' (negb c) = bs_orders bids s (negb c)
  | OutFull => unchanged bids s s' /\ is_full (bs_arena s) = true
  | _ => False
  end.
Proof.
  intros Hr Hok. pose proof Hr as Hr0. apply reachable_rep in Hr as [b Hb].
  destruct (bs_step_ok bids cap s b (OInsert c l) Hb Hok) as (s' & x & b' & H1 & H2 & H3).
  exists s', x. split; [assumption|].
  destruct (bs_orders_ok bids cap s b c Hb) as (L & HL & HpL & HsL).
  inversion H2; subst.
  - assert (Hw : without (l_key l) (l :: get c b) = get c b).
    { cbn [without filter]. rewrite Z.eqb_refl. cbn [negb]. apply without_notin. assumption. }
    eapply (without_step_removed bids cap s' s (set c (l :: get c b) b) c l); [assumption| |].
    + rewrite get_set_same. left; reflexivity.
    + rewrite get_set_same, Hw. destruct c, b; exact Hb.
  - match goal with h : In old _ |- _ => rename h into Hold end.
    match goal with h : l_key old = _ |- _ => rename h into Hk end.
    split; [assumption|]. split; [|eapply orders_other; [exact Hb|exact H3|apply get_set_other]].
    destruct (bs_orders_ok bids cap s' _ c H3) as (L' & HL' & HpL' & HsL').
    rewrite get_set_same in HpL'.
    assert (HinL : In old L) by (eapply Permutation_in; [apply Permutation_sym; exact HpL|exact Hold]).
    apply in_split in HinL as (A & B & HA). exists A, B. rewrite HL, HL', HA. split; [reflexivity|].
    f_equal. subst L.
    assert (HsAB : StronglySorted (fun x y => worse bids y x) (A ++ l :: B)).
    { clear - HsL Hk. induction A as [|y A IH]; cbn [app] in *.
      - inversion HsL as [|? ? Hs Hf]; subst. constructor; [assumption|].
        eapply Forall_impl; [|exact Hf]. intros z. unfold worse. destruct bids; lia.
      - inversion HsL as [|? ? Hs Hf]; subst. constructor; [auto|].
        rewrite Forall_forall in *. intros z Hz. apply in_app_or in Hz as [Hz|[<-|Hz]].
        + apply Hf. apply in_or_app; auto.
        + assert (Ho : worse bids old y) by (apply Hf; apply in_or_app; right; left; reflexivity).
          unfold worse in *. destruct bids; lia.
        + apply Hf. apply in_or_app; right; right; assumption. }
    apply (sorted_perm_eq (fun x y => worse bids y x)); auto.
    + intros x y. apply worse_irr.
    + transitivity (l :: without (l_key l) (get c b)); [exact HpL'|].
      transitivity (l :: (A ++ B)); [|apply Permutation_middle]. apply perm_skip.
      rewrite <- Hk, <- (without_mid_w bids A old B HsL). apply without_perm. symmetry. exact HpL.
  - split; [eapply same_unchanged; eassumption|].
    destruct (is_full (bs_arena s)) eqn:Hf; [reflexivity|exfalso].
    match goal with h : ~ room _ _ _ |- _ => apply h end. apply (not_full_room cap s); assumption.
Qed.
