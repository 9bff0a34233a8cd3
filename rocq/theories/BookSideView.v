(** The two sorted order lists of a reachable book side, and what each
    operation does to them. *)
From Coq Require Import List ZArith Lia Bool Arith Permutation Sorted.
From Verif Require Import OrderTree OrderTreeSpec KeyBits OrderTreeRep OrderTreeOps2 BookArena BookArenaProofs
  BookArenaFacts Keys BookSide BookSideSpec BookSideProofs.
Import ListNotations.
Open Scope Z_scope.

Definition lists := (list leaf * list leaf)%type.

Definition view (sd : side) (cap : nat) (s : bookside) (b : lists) : Prop :=
  reachable sd cap s /\ forall c, bs_orders sd s c = Some (get c b).

Lemma bs_run_snoc bids os o : forall s s1 outs s2 x,
  bs_run bids s os = Some (s1, outs) -> bs_step bids s1 o = Some (s2, x) ->
  bs_run bids s (os ++ [o]) = Some (s2, outs ++ [x]).
Proof.
  induction os as [|o1 os IH]; intros s s1 outs s2 x H1 H2; cbn [app bs_run] in *.
  - injection H1 as <- <-. rewrite H2. reflexivity.
  - destruct (bs_step bids s o1) as [[s3 x3]|]; [|discriminate].
    destruct (bs_run bids s3 os) as [[s4 xs]|] eqn:E; [|discriminate]. injection H1 as -> <-.
    rewrite (IH _ _ _ _ _ E H2). reflexivity.
Qed.
Lemma reachable_init sd cap : reachable sd cap (bs_init cap).
Proof. exists [], []. split; [constructor|reflexivity]. Qed.
Lemma reachable_step sd cap s o s' x : reachable sd cap s -> op_ok o ->
  bs_step sd s o = Some (s', x) -> reachable sd cap s'.
Proof.
  intros (ops & outs & Hok & Hrun) Ho Hs. exists (ops ++ [o]), (outs ++ [x]). split.
  - apply Forall_app. split; [exact Hok|]. constructor; [exact Ho|constructor].
  - eapply bs_run_snoc; eassumption.
Qed.

Lemma bsrep_leaf_ok cap s b c l : bsrep cap s b -> In l (get c b) -> leaf_ok l.
Proof.
  intros Hb Hin. destruct (bsrep_comp cap s b c Hb) as (_ & o & oo & fl & [_ Ht] & _ & Hp & _).
  apply (Permutation_in _ (Permutation_sym Hp)) in Hin.
  destruct o as [t|]; [|destruct Hin]. cbn in Hin. eapply wf_leaf_ok; [|exact Hin]. tauto.
Qed.

Lemma view_exists sd cap s : reachable sd cap s -> exists b, view sd cap s b.
Proof.
  intros Hr. destruct (reachable_rep sd cap s Hr) as [b Hb].
  destruct (bs_orders_ok sd cap s b false Hb) as (F & HF & _).
  destruct (bs_orders_ok sd cap s b true Hb) as (P & HP & _).
  exists (F, P). split; [exact Hr|]. intros [|]; assumption.
Qed.
Lemma view_fun sd cap s b b' : view sd cap s b -> view sd cap s b' -> b = b'.
Proof.
  intros [_ H] [_ H']. pose proof (H false). pose proof (H true). pose proof (H' false). pose proof (H' true).
  destruct b, b'; cbn in *; congruence.
Qed.
Lemma view_sorted sd cap s b c : view sd cap s b -> lsorted sd (get c b).
Proof.
  intros [Hr H]. destruct (reachable_rep sd cap s Hr) as [b0 Hb].
  destruct (bs_orders_ok sd cap s b0 c Hb) as (L & H1 & _ & H3). rewrite (H c) in H1. injection H1 as ->. exact H3.
Qed.
Lemma view_leaf_ok sd cap s b c : view sd cap s b -> Forall leaf_ok (get c b).
Proof.
  intros [Hr H]. destruct (reachable_rep sd cap s Hr) as [b0 Hb].
  destruct (bs_orders_ok sd cap s b0 c Hb) as (L & H1 & H2 & _). rewrite (H c) in H1. injection H1 as ->.
  apply Forall_forall. intros l Hl. eapply bsrep_leaf_ok; [exact Hb|]. eapply Permutation_in; [exact H2|exact Hl].
Qed.
Lemma leaf_ok_okey l : leaf_ok l -> okey l.
Proof. unfold leaf_ok, okey, key_ok. tauto. Qed.
Lemma view_okey sd cap s b c : view sd cap s b -> Forall okey (get c b).
Proof. intros H. eapply Forall_impl; [|exact (view_leaf_ok sd cap s b c H)]. exact leaf_ok_okey. Qed.

Lemma lsorted_keys_nodup sd L : lsorted sd L -> NoDup (map l_key L).
Proof.
  induction 1 as [|x L HL IH HF]; cbn; [constructor|]. constructor; [|exact IH].
  intros Hin. apply in_map_iff in Hin as (y & Hy & Hin). rewrite Forall_forall in HF.
  specialize (HF y Hin). unfold worse in HF. destruct sd; lia.
Qed.
Lemma lsorted_key_inj sd L x y : lsorted sd L -> In x L -> In y L -> l_key x = l_key y -> x = y.
Proof.
  intros HL. induction HL as [|z L HL IH HF]; cbn; [tauto|].
  rewrite Forall_forall in HF. intros [<-|Hx] [<-|Hy] E; auto.
  - specialize (HF y Hy). unfold worse in HF. destruct sd; lia.
  - specialize (HF x Hx). unfold worse in HF. destruct sd; lia.
Qed.

Lemma neq_negb (c' c : bool) : c' <> c -> c' = negb c.
Proof. destruct c, c'; cbn; congruence. Qed.
Lemma lists_eta (b : lists) c : b = set c (get c b) b.
Proof. destruct b, c; reflexivity. Qed.

(** exactly [l] is taken out of component [c] *)
Definition minus (b : lists) (c : comp) (l : leaf) (b' : lists) : Prop :=
  exists A B, get c b = A ++ l :: B /\ b' = set c (A ++ B) b.

Lemma removed_minus sd cap s s' b c l : view sd cap s b -> reachable sd cap s' ->
  removed_exactly sd s s' c l -> exists b', view sd cap s' b' /\ minus b c l b'.
Proof.
  intros [Hr H] Hr' [(A & B & HA & HB) Ho]. rewrite (H c) in HA. injection HA as HA.
  exists (set c (A ++ B) b). split.
  - split; [exact Hr'|]. intros c'. destruct (Bool.bool_dec c' c) as [->|Hne].
    + rewrite get_set_same. exact HB.
    + assert (c' = negb c) as -> by (apply neq_negb; exact Hne).
      rewrite get_set_other, Ho, (H (negb c)). reflexivity.
  - exists A, B. split; [exact HA|reflexivity].
Qed.

Lemma view_unchanged sd cap s s' b : view sd cap s b -> reachable sd cap s' ->
  unchanged sd s s' -> view sd cap s' b.
Proof. intros [Hr H] Hr' Hu. split; [exact Hr'|]. intros c. rewrite (Hu c). apply H. Qed.

(** remove by key *)
Lemma view_remove sd cap s b c k : view sd cap s b ->
  exists s' x b', bs_step sd s (ORemove c k) = Some (s', OutRemoved x) /\ view sd cap s' b' /\
    match x with
    | Some l => l_key l = k /\ minus b c l b'
    | None => absent k (get c b) /\ b' = b
    end.
Proof.
  intros Hv. pose proof Hv as [Hr H]. destruct (remove_fact sd cap s c k Hr) as (s' & x & Hs & Hx).
  pose proof (reachable_step _ _ _ (ORemove c k) _ _ Hr I Hs) as Hr'. destruct x as [l|].
  - destruct Hx as [Hk Hx]. destruct (removed_minus _ _ _ _ _ _ _ Hv Hr' Hx) as (b' & Hv' & Hm).
    exists s', (Some l), b'. auto.
  - destruct Hx as [Ha Hu]. exists s', None, b. split; [exact Hs|]. split; [eapply view_unchanged; eassumption|].
    split; [apply Ha, H|reflexivity].
Qed.

Lemma view_remove_in sd cap s b c l : view sd cap s b -> In l (get c b) ->
  exists s' b', bs_step sd s (ORemove c (l_key l)) = Some (s', OutRemoved (Some l)) /\ view sd cap s' b' /\
    minus b c l b'.
Proof.
  intros Hv Hin. destruct (view_remove sd cap s b c (l_key l) Hv) as (s' & x & b' & H1 & H2 & H3).
  destruct x as [l'|].
  - destruct H3 as [Hk Hm]. assert (l' = l) as ->.
    { destruct Hm as (A & B & E & _). eapply (lsorted_key_inj sd (get c b)); auto.
      - eapply view_sorted; exact Hv.
      - rewrite E. apply in_or_app. right; left; reflexivity. }
    exists s', b'. auto.
  - destruct H3 as [Ha _]. exfalso. exact (Ha l Hin eq_refl).
Qed.

(** expired on one component *)
Lemma view_expired1 sd cap s b c now : view sd cap s b ->
  exists s' x b', bs_step sd s (ORemoveExpired c now) = Some (s', OutRemoved x) /\ view sd cap s' b' /\
    match x with
    | Some l => expiry l < now /\ (forall l', In l' (get c b) -> expiry l <= expiry l') /\ minus b c l b'
    | None => (forall l, In l (get c b) -> now <= expiry l) /\ b' = b
    end.
Proof.
  intros Hv. pose proof Hv as [Hr H]. destruct (expired_fact sd cap s c now Hr) as (s' & x & Hs & Hx).
  pose proof (reachable_step _ _ _ (ORemoveExpired c now) _ _ Hr I Hs) as Hr'.
  specialize (Hx (get c b) (H c)). destruct x as [l|].
  - destruct Hx as (H1 & H2 & Hx). destruct (removed_minus _ _ _ _ _ _ _ Hv Hr' Hx) as (b' & Hv' & Hm).
    exists s', (Some l), b'. auto.
  - destruct Hx as [Ha Hu]. exists s', None, b. split; [exact Hs|]. split; [eapply view_unchanged; eassumption|]. auto.
Qed.

(** bookside.rs remove_one_expired *)
Lemma view_expired sd cap s b c now : view sd cap s b ->
  exists s' x b', bs_remove_one_expired sd s c now = Some (s', x) /\ view sd cap s' b' /\
    match x with
    | Some l => expiry l < now /\
        exists c', minus b c' l b' /\ (forall l', In l' (get c' b) -> expiry l <= expiry l') /\
          (c' <> c -> forall l', In l' (get c b) -> now <= expiry l')
    | None => (forall c' l, In l (get c' b) -> now <= expiry l) /\ b' = b
    end.
Proof.
  intros Hv. unfold bs_remove_one_expired.
  destruct (view_expired1 sd cap s b c now Hv) as (s1 & x1 & b1 & E1 & V1 & H1). rewrite E1.
  destruct x1 as [l|].
  - exists s1, (Some l), b1. split; [reflexivity|]. split; [exact V1|]. destruct H1 as (Ha & Hb & Hc).
    split; [exact Ha|]. exists c. split; [exact Hc|]. split; [exact Hb|]. congruence.
  - destruct H1 as [Ha ->].
    destruct (view_expired1 sd cap s1 b (negb c) now V1) as (s2 & x2 & b2 & E2 & V2 & H2). rewrite E2.
    exists s2, x2, b2. split; [reflexivity|]. split; [exact V2|]. destruct x2 as [l|].
    + destruct H2 as (Hb & Hc & Hd). split; [exact Hb|]. exists (negb c). split; [exact Hd|]. split; [exact Hc|].
      intros _. exact Ha.
    + destruct H2 as [Hb ->]. split; [|reflexivity]. intros c' l Hl.
      destruct (Bool.bool_dec c' c) as [->|Hne]; [exact (Ha l Hl)|].
      assert (c' = negb c) as -> by (apply neq_negb; exact Hne). exact (Hb l Hl).
Qed.

(** insert into a side that is not full *)
Lemma view_insert sd cap s b c l : view sd cap s b -> leaf_ok l -> is_full (bs_arena s) = false ->
  absent (l_key l) (get c b) ->
  exists s' b', bs_step sd s (OInsert c l) = Some (s', OutInserted) /\ view sd cap s' b' /\
    minus b' c l b.
Proof.
  intros Hv Hok Hf Ha. pose proof Hv as [Hr H].
  destruct (insert_not_full sd cap s c l Hr Hok Hf) as (s' & Hs & Hx).
  { intros L HL. rewrite (H c) in HL. injection HL as <-. exact Ha. }
  pose proof (reachable_step _ _ _ (OInsert c l) _ _ Hr Hok Hs) as Hr'.
  destruct (view_exists sd cap s' Hr') as [b' Hv']. exists s', b'. split; [exact Hs|]. split; [exact Hv'|].
  destruct (removed_minus _ _ _ _ _ _ _ Hv' Hr Hx) as (b0 & Hv0 & Hm).
  rewrite (view_fun _ _ _ _ _ Hv Hv0). exact Hm.
Qed.

(** quantity change *)
Definition with_qty (l : leaf) (q : Z) : leaf :=
  mkLeaf (l_owner_slot l) (l_order_type l) (l_tif l) (l_key l) (l_owner l) q
         (l_timestamp l) (l_peg_limit l) (l_client_id l).

Lemma set_qty_mid sd A l B q : lsorted sd (A ++ l :: B) ->
  set_qty (l_key l) q (A ++ l :: B) = A ++ with_qty l q :: B.
Proof.
  intros HL.
  assert (Hn : forall x, In x (A ++ B) -> l_key x <> l_key l).
  { pose proof (lsorted_keys_nodup sd _ HL) as Hnd. rewrite map_app in Hnd. cbn [map] in Hnd.
    apply NoDup_remove_2 in Hnd. intros x Hx He. apply Hnd. rewrite <- map_app, <- He. apply in_map, Hx. }
  assert (Hid : forall X, (forall x, In x X -> l_key x <> l_key l) -> set_qty (l_key l) q X = X).
  { induction X as [|x X IH]; intros HX; [reflexivity|]. cbn [set_qty map] in *.
    destruct (Z.eqb_spec (l_key x) (l_key l)) as [E|E]; [exfalso; exact (HX x (or_introl eq_refl) E)|].
    f_equal. apply IH. intros y Hy. apply HX. right; exact Hy. }
  unfold set_qty in *. rewrite map_app. cbn [map]. rewrite Z.eqb_refl.
  rewrite !Hid; [reflexivity| |]; intros x Hx; apply Hn, in_or_app; auto.
Qed.

Lemma lsorted_with_qty sd A l B q : lsorted sd (A ++ l :: B) -> lsorted sd (A ++ with_qty l q :: B).
Proof.
  unfold lsorted. induction A as [|y A IH]; cbn [app]; intros H; inversion H as [|? ? Hs Hf]; subst.
  - constructor; [exact Hs|]. eapply Forall_impl; [|exact Hf]. intros z. unfold worse, with_qty. cbn. auto.
  - constructor; [auto|]. rewrite Forall_app in *. destruct Hf as [Hf1 Hf2]. split; [exact Hf1|].
    inversion Hf2; subst. constructor; auto.
Qed.

Lemma view_set_qty sd cap s b c A l B q : view sd cap s b -> get c b = A ++ l :: B ->
  exists s', bs_step sd s (OSetQty c (l_key l) q) = Some (s', OutUnit) /\
    view sd cap s' (set c (A ++ with_qty l q :: B) b).
Proof.
  intros Hv E. pose proof Hv as [Hr H].
  destruct (reachable_rep sd cap s Hr) as [b0 Hb].
  destruct (bs_step_ok sd cap s b0 (OSetQty c (l_key l) q) Hb I) as (s' & x & b1 & Hs & Hsp & Hb').
  pose proof (reachable_step _ _ _ (OSetQty c (l_key l) q) _ _ Hr I Hs) as Hr'.
  destruct (bs_orders_ok sd cap s b0 c Hb) as (L & HL & HpL & HsL).
  rewrite (H c) in HL. injection HL as HL. rewrite <- HL in *.
  assert (Hx : x = OutUnit /\ b1 = set c (set_qty (l_key l) q (get c b0)) b0).
  { inversion Hsp; subst; [auto|]. exfalso.
    match goal with h : absent _ _ |- _ => apply (h l); [|reflexivity] end.
    eapply Permutation_in; [exact HpL|]. rewrite E. apply in_or_app; right; left; reflexivity. }
  destruct Hx as [-> ->]. exists s'. split; [exact Hs|]. split; [exact Hr'|]. intros c'.
  destruct (Bool.bool_dec c' c) as [->|Hne].
  - rewrite get_set_same. destruct (bs_orders_ok sd cap s' _ c Hb') as (L' & HL' & HpL' & HsL').
    rewrite HL'. f_equal. rewrite get_set_same in HpL'.
    apply (sorted_perm_eq (fun x y => worse sd y x)); auto.
    + intros u v. apply worse_irr.
    + apply (lsorted_with_qty sd). rewrite <- E. exact HsL.
    + rewrite HpL'. rewrite <- (set_qty_mid sd) by (rewrite <- E; exact HsL). rewrite <- E.
      unfold set_qty. apply Permutation_map. symmetry. exact HpL.
  - assert (c' = negb c) as -> by (apply neq_negb; exact Hne). rewrite get_set_other.
    rewrite (orders_other sd cap s s' b0 _ c Hb Hb'); [apply H|]. apply get_set_other.
Qed.

(** worst of one component *)
Lemma view_find_worst sd cap s b c : view sd cap s b ->
  exists w, find_worst sd (bs_arena s) (get c (bs_roots s)) = Some w /\
    option_map snd w = hd_error (rev (get c b)).
Proof.
  intros [Hr H]. destruct (reachable_rep sd cap s Hr) as [b0 Hb].
  destruct (bsrep_comp cap s b0 c Hb) as (_ & o & oo & fl & Ht & _).
  unfold find_worst. rewrite (leaf_min_max_ok _ _ _ _ _ (negb sd) Ht).
  specialize (H c). unfold bs_orders in H. rewrite (iter_all_ok sd _ _ _ _ _ Ht) in H. injection H as H.
  eexists. split; [reflexivity|]. rewrite <- H.
  destruct sd; cbn [negb].
  - rewrite map_rev, rev_involutive. destruct (ohlvs o); reflexivity.
  - rewrite <- map_rev. destruct (rev (ohlvs o)); reflexivity.
Qed.
