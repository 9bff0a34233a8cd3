(** Correctness of the arena operations with respect to the represented tree. *)
From Coq Require Import List ZArith Lia Bool Arith Permutation.
From Verif Require Import OrderTree KeyBits OrderTreeRep.
Import ListNotations.
Open Scope Z_scope.

Definition tcontents (t : ctree) : anynode :=
  match t with
  | CL _ l => NLeaf l
  | CN _ plen key e0 e1 a b => NInner (mkInner plen key (rt a) (rt b) e0 e1)
  end.
Definition reh (t : ctree) (h : nat) : ctree :=
  match t with CL _ l => CL h l | CN _ plen key e0 e1 a b => CN h plen key e0 e1 a b end.
Definition subhs (t : ctree) : list nat :=
  match t with CL _ _ => [] | CN _ _ _ _ _ a b => hs a ++ hs b end.

Lemma hs_sub t : hs t = rt t :: subhs t.
Proof. destruct t; reflexivity. Qed.
Lemma hs_reh t h : hs (reh t h) = h :: subhs t.
Proof. destruct t; reflexivity. Qed.
Lemma lvs_reh t h : lvs (reh t h) = lvs t.
Proof. destruct t; reflexivity. Qed.
Lemma mexp_reh t h : mexp (reh t h) = mexp t.
Proof. destruct t; reflexivity. Qed.
Lemma rt_reh t h : rt (reh t h) = h.
Proof. destruct t; reflexivity. Qed.
Lemma wf_reh t h : wf (reh t h) <-> wf t.
Proof. destruct t; cbn; tauto. Qed.
Lemma rep_contents ns t : rep ns t -> nth_error ns (rt t) = Some (tcontents t).
Proof. destruct t; cbn; tauto. Qed.
Lemma rep_reh ns ns' t h :
  rep ns t -> nth_error ns' h = Some (tcontents t) ->
  (forall x, In x (subhs t) -> nth_error ns' x = nth_error ns x) -> rep ns' (reh t h).
Proof.
  destruct t as [h0 l|h0 plen key e0 e1 a b]; cbn [rep reh tcontents subhs]; intros Hr Hc Ho; [assumption|].
  destruct Hr as (H1 & H2 & H3). split; [assumption|].
  split; [eapply rep_frame; [|exact H2]|eapply rep_frame; [|exact H3]];
    intros x Hx; apply Ho; apply in_or_app; auto.
Qed.
Lemma node_tcontents a t : nth_error (nodes a) (rt t) = Some (tcontents t) ->
  node a (rt t) = Some (tcontents t).
Proof. unfold node; intros ->; destruct t; reflexivity. Qed.
Lemma node_tcontents' a h t : nth_error (nodes a) h = Some (tcontents t) ->
  node a h = Some (tcontents t).
Proof. unfold node; intros ->; destruct t; reflexivity. Qed.
Lemma node_expiry_tcontents t : wf t -> node_expiry (tcontents t) = Some (mexp t).
Proof.
  destruct t; cbn; [reflexivity|]. unfold inner_expiry; cbn. intros H.
  destruct H as (_ & _ & _ & _ & -> & -> & _). reflexivity.
Qed.

Lemma path_absent p e k : wfp p e -> fits p k ->
  forall l, In l (prel p ++ postl p) -> l_key l <> k.
Proof.
  revert e; induction p as [|f p IH]; intros e; cbn [wfp prel postl]; [intros _ _ l []|].
  intros (H1 & H2 & H3 & H4 & H5 & H6 & H7) Hf l Hl.
  inversion Hf as [|? ? [Hx Hy] Hz]; subst.
  assert (Hcase : In l (lvs (f_sib f)) \/ In l (prel p ++ postl p)).
  { destruct (f_b f); rewrite ?app_nil_r in Hl; cbn [app] in Hl.
    - rewrite <- app_assoc in Hl. apply in_app_or in Hl as [Hl|Hl]; [right; apply in_or_app; auto|].
      apply in_app_or in Hl as [Hl|Hl]; [auto|right; apply in_or_app; auto].
    - apply in_app_or in Hl as [Hl|Hl]; [right; apply in_or_app; auto|].
      apply in_app_or in Hl as [Hl|Hl]; [auto|right; apply in_or_app; auto]. }
  destruct Hcase as [Hs|Ho].
  - destruct (H6 l Hs) as (_ & Hb & _). intros He. rewrite He, Hy in Hb.
    destruct (f_b f); discriminate.
  - eapply IH; eassumption.
Qed.

(** the "place" situation: the new key leaves subtree [t]'s prefix *)
Definition diverges (t : ctree) (k : Z) : Prop :=
  match t with
  | CL _ l => l_key l <> k
  | CN _ plen key _ _ _ _ => shared key k < plen
  end.

Lemma diverges_spec t k : wf t -> key_ok k -> diverges t k ->
  let s := shared (ckey t) k in
  0 <= s <= 127 /\
  forall l, In l (lvs t) -> pre s k (l_key l) /\ bitat s (l_key l) = negb (bitat s k).
Proof.
  intros Hw Hk Hd. pose proof (wf_ckey_ok t Hw) as Hck. cbn zeta.
  destruct t as [h l|h plen key e0 e1 a b]; cbn [diverges ckey wf lvs] in *.
  - destruct (shared_neq (l_key l) k Hck Hk Hd) as (H1 & H2 & H3).
    split; [assumption|]. intros l' [<-|[]]. split; [apply pre_sym; assumption|assumption].
  - destruct Hw as (Hp & _ & Ha & Hb & _ & _ & Hla & Hlb).
    assert (Hne : key <> k). { intros ->. rewrite shared_eq in Hd. lia. }
    destruct (shared_neq key k Hck Hk Hne) as (H1 & H2 & H3).
    split; [assumption|]. intros l' Hl'.
    assert (Hpl : pre plen key (l_key l')).
    { apply in_app_or in Hl' as [Hl'|Hl']; [apply Hla|apply Hlb]; assumption. }
    split.
    + apply pre_trans with key; [apply pre_sym; assumption|].
      eapply pre_weaken; [|exact Hpl]. lia.
    + rewrite <- H3. symmetry. eapply pre_bit; [| | |exact Hpl]; lia.
Qed.

Definition insert_post (a : arena) (r : root) (nl : leaf) (T : ctree) (O : list nat)
  (a' : arena) (r' : root) (rs : res (nat * option leaf)) : Prop :=
  exists T' fl',
    ainv a' (hs T' ++ O) fl' /\ rep (nodes a') T' /\ wf T' /\ rt T' = rt T /\
    length (nodes a') = length (nodes a) /\
    (forall x, In x O -> nth_error (nodes a') x = nth_error (nodes a) x) /\
    ((exists old h A B, rs = inl (h, Some old) /\ l_key old = l_key nl /\
        lvs T = A ++ old :: B /\ lvs T' = A ++ nl :: B /\ r' = r /\ In (h, nl) (hlvs T'))
     \/ (exists h A B, rs = inl (h, None) /\
          (forall l, In l (lvs T) -> l_key l <> l_key nl) /\
          lvs T = A ++ B /\ lvs T' = A ++ nl :: B /\
          r' = mkRoot (maybe_node r) (S (leaf_count r)) /\ In (h, nl) (hlvs T') /\
          (length (hs T ++ O) + 2 <= length (nodes a))%nat)
     \/ (rs = inr tt /\ (forall l, In l (lvs T) -> l_key l <> l_key nl) /\
          lvs T' = lvs T /\ r' = r /\
          (length (nodes a) < length (hs T ++ O) + 2)%nat)).

Lemma hlvs_plug_in p t x : In x (hlvs t) -> In x (hlvs (plug p t)).
Proof.
  revert t; induction p as [|f p IH]; intros t H; cbn [plug]; [assumption|].
  apply IH. unfold plug1; destruct (f_b f); cbn [hlvs]; apply in_or_app; auto.
Qed.

Lemma perm_plug_O p t O : Permutation (hs (plug p t) ++ O) (hsp p ++ hs t ++ O).
Proof. rewrite (hs_plug p t), <- app_assoc. reflexivity. Qed.

Lemma nodup_hsp a p t O fl : ainv a (hs (plug p t) ++ O) fl ->
  NoDup (hsp p ++ hs t ++ O).
Proof.
  intros H. eapply ainv_perm in H; [|apply perm_plug_O].
  apply ainv_nodup in H. apply nodup_app_l in H. exact H.
Qed.

Lemma in_hs_plug p t x : In x (hs (plug p t)) <-> In x (hsp p) \/ In x (hs t).
Proof.
  split; intros H.
  - eapply Permutation_in in H; [|apply hs_plug]. apply in_app_or in H. exact H.
  - eapply Permutation_in; [apply Permutation_sym, hs_plug|]. apply in_or_app. exact H.
Qed.

(** Splitting node: ordertree.rs:364-397 *)
Lemma place_ok p t a r nl O fl :
  ainv a (hs (plug p t) ++ O) fl -> rep (nodes a) (plug p t) -> wf (plug p t) ->
  leaf_ok nl -> fits p (l_key nl) -> diverges t (l_key nl) ->
  exists a' r' rs,
    match crit_bit (shared (ckey t) (l_key nl)) (l_key nl) with
    | None => None
    | Some b =>
      match slot_insert a (NLeaf nl) with
      | None => None
      | Some (a1, inr e) => Some (a1, r, inr e)
      | Some (a1, inl lh) =>
        match slot_insert a1 (tcontents t) with
        | None => None
        | Some (a2, inr e) =>
            match slot_remove a2 lh with
            | None => None
            | Some (a3, _) => Some (a3, r, inr e)
            end
        | Some (a2, inl mh) =>
            match node a2 (rt t) with
            | None => None
            | Some _ =>
              let np :=
                if b
                then mkInner (shared (ckey t) (l_key nl)) (l_key nl) mh lh (mexp t) (expiry nl)
                else mkInner (shared (ckey t) (l_key nl)) (l_key nl) lh mh (expiry nl) (mexp t) in
              let a3 := set_nodes a2 (upd (nodes a2) (rt t) (NInner np)) in
              let upd_res :=
                if expiry nl <? mexp t
                then update_parents a3 (stk p) (mexp t) (expiry nl)
                else Some a3 in
              match upd_res with
              | None => None
              | Some a4 =>
                  Some (a4, mkRoot (maybe_node r) (S (leaf_count r)), inl (lh, None))
              end
            end
        end
      end
    end = Some (a', r', rs) /\ insert_post a r nl (plug p t) O a' r' rs.
Proof.
  intros Ha Hr Hw Hok Hfit Hdiv.
  pose proof Hw as Hw0. pose proof Hr as Hr0.
  apply wf_plug in Hw as (Hwt & Hwp & Hft). apply rep_plug in Hr as (Hrt & Hrp).
  destruct (diverges_spec t (l_key nl) Hwt (proj1 Hok) Hdiv) as (Hs & Hbits).
  set (s := shared (ckey t) (l_key nl)) in *.
  rewrite (crit_bit_spec s) by exact Hs.
  assert (Habs : forall l, In l (lvs (plug p t)) -> l_key l <> l_key nl).
  { intros l Hl. rewrite lvs_plug in Hl.
    apply in_app_or in Hl as [Hl|Hl].
    - eapply path_absent; [exact Hwp|exact Hfit|]. apply in_or_app; auto.
    - apply in_app_or in Hl as [Hl|Hl].
      + destruct (Hbits l Hl) as [_ Hb]. intros He. rewrite He in Hb.
        destruct (bitat s (l_key nl)); discriminate.
      + eapply path_absent; [exact Hwp|exact Hfit|]. apply in_or_app; auto. }
  pose proof (slot_insert_ok a _ fl (NLeaf nl) Ha) as Hi1.
  destruct (Nat.ltb_spec (length (hs (plug p t) ++ O)) (length (nodes a))) as [Hc1|Hc1].
  2:{ rewrite Hi1. eexists _, _, _. split; [reflexivity|].
      exists (plug p t), fl. refine (conj Ha (conj Hr0 (conj Hw0 (conj eq_refl (conj eq_refl (conj _ _)))))).
      { auto. } right; right. refine (conj eq_refl (conj Habs (conj eq_refl (conj eq_refl _)))). lia. }
  destruct Hi1 as (a1 & lh & fl1 & Hi1 & Ha1 & Hnl & Hlen1 & Hlh & Hoth1).
  rewrite Hi1.
  pose proof (slot_insert_ok a1 _ fl1 (tcontents t) Ha1) as Hi2.
  destruct (Nat.ltb_spec (length (lh :: hs (plug p t) ++ O)) (length (nodes a1))) as [Hc2|Hc2].
  2:{ rewrite Hi2.
      destruct (slot_remove_ok a1 _ fl1 lh (NLeaf nl) Ha1) as (a3 & Hrm & Ha3 & Hlen3 & Hoth3).
      { unfold node. rewrite Hlh. reflexivity. }
      rewrite Hrm. eexists _, _, _. split; [reflexivity|].
      assert (Hsame : forall x, In x (hs (plug p t) ++ O) -> nth_error (nodes a3) x = nth_error (nodes a) x).
      { intros x Hx. rewrite Hoth3; [apply Hoth1; assumption|]. intros ->. contradiction. }
      exists (plug p t), (lh :: fl1). split; [assumption|]. split.
      { eapply rep_frame; [|exact Hr0]. intros x Hx. apply Hsame. apply in_or_app; auto. }
      split; [assumption|]. split; [reflexivity|]. split; [congruence|].
      split; [intros x Hx; apply Hsame; apply in_or_app; auto|].
      right; right. repeat split; auto. cbn [length] in Hc2. lia. }
  destruct Hi2 as (a2 & mh & fl2 & Hi2 & Ha2 & Hnm & Hlen2 & Hmh & Hoth2).
  rewrite Hi2.
  assert (Hin0 : In (rt t) (hs (plug p t) ++ O)).
  { apply in_or_app; left. apply in_hs_plug. right. apply rt_in. }
  assert (Hsame2 : forall x, In x (hs (plug p t) ++ O) -> nth_error (nodes a2) x = nth_error (nodes a) x).
  { intros x Hx. rewrite Hoth2; [apply Hoth1; assumption|]. right; assumption. }
  assert (Hlh2 : nth_error (nodes a2) lh = Some (NLeaf nl)).
  { rewrite Hoth2; [assumption|]. left; reflexivity. }
  rewrite (node_tcontents a2 t) by (rewrite Hsame2 by assumption; apply rep_contents; assumption).
  set (b := bitat s (l_key nl)) in *.
  cbn zeta.
  set (np := if b then _ else _).
  set (a3 := set_nodes a2 (upd (nodes a2) (rt t) (NInner np))).
  pose proof (nodup_hsp _ _ _ _ _ Ha) as Hnd.
  assert (Hlt0 : (rt t < length (nodes a2))%nat).
  { eapply nth_some_lt. rewrite Hsame2 by assumption. apply rep_contents. exact Hrt. }
  assert (Hoth3 : forall x, In x (hs (plug p t) ++ O) -> x <> rt t -> nth_error (nodes a3) x = nth_error (nodes a) x).
  { intros x Hx Hne. cbn. rewrite upd_other by congruence. apply Hsame2; assumption. }
  assert (Hlh_ne : lh <> rt t) by (intros ->; contradiction).
  assert (Hmh_ne : mh <> rt t).
  { intros ->. apply Hnm. right. assumption. }
  assert (Hlm : lh <> mh). { intros ->. apply Hnm. left; reflexivity. }
  set (t' := if b then CN (rt t) s (l_key nl) (mexp t) (expiry nl) (reh t mh) (CL lh nl)
             else CN (rt t) s (l_key nl) (expiry nl) (mexp t) (CL lh nl) (reh t mh)).
  assert (Hrt' : rt t' = rt t) by (unfold t'; destruct b; reflexivity).
  assert (Hme' : mexp t' = Z.min (expiry nl) (mexp t)).
  { unfold t'; destruct b; cbn [mexp]; rewrite mexp_reh; [apply Z.min_comm|reflexivity]. }
  assert (Hnotin_p : forall x, In x (hsp p) -> x <> rt t).
  { intros x Hx ->. eapply nodup_app_disj; [exact Hnd|exact Hx|].
    apply in_or_app; left. apply rt_in. }
  assert (Hnotin_sub : forall x, In x (subhs t) -> x <> rt t).
  { intros x Hx ->. apply nodup_app_r in Hnd. rewrite hs_sub in Hnd. cbn in Hnd.
    inversion Hnd as [|? ? Hn _]; subst. apply Hn. apply in_or_app; auto. }
  assert (Hrep3 : rep (nodes a3) t').
  { assert (Hm3 : rep (nodes a3) (reh t mh)).
    { eapply rep_reh; [exact Hrt| |].
      - cbn. rewrite upd_other by congruence. assumption.
      - intros x Hx. apply Hoth3; [|apply Hnotin_sub; assumption].
        apply in_or_app; left. apply in_hs_plug; right. rewrite hs_sub; right; assumption. }
    assert (Hl3 : nth_error (nodes a3) lh = Some (NLeaf nl)).
    { cbn. rewrite upd_other by congruence. assumption. }
    assert (Hn3 : nth_error (nodes a3) (rt t) = Some (NInner np)).
    { cbn. apply upd_same. assumption. }
    unfold t', np in *. destruct b; cbn [rep rt]; rewrite ?rt_reh; auto. }
  assert (Hrp3 : reppath (nodes a3) p (rt t)).
  { eapply reppath_frame; [|exact Hrp]. intros x Hx. apply Hoth3; [|auto].
    apply in_or_app; left. apply in_hs_plug; auto. }
  assert (Hwt' : wf t').
  { assert (Hnp : pre s (l_key nl) (l_key nl)) by apply pre_refl.
    assert (Hkk : key_ok (l_key nl)) by apply Hok.
    unfold t'. destruct b eqn:Hb; cbn [wf lvs]; rewrite lvs_reh, wf_reh, mexp_reh.
    - refine (conj Hs (conj Hkk (conj Hwt (conj Hok (conj eq_refl (conj eq_refl (conj _ _))))))).
      + intros l Hl. exact (Hbits l Hl).
      + intros l [<-|[]]. split; [assumption|]. exact Hb.
    - refine (conj Hs (conj Hkk (conj Hok (conj Hwt (conj eq_refl (conj eq_refl (conj _ _))))))).
      + intros l [<-|[]]. split; [assumption|]. exact Hb.
      + intros l Hl. exact (Hbits l Hl). }
  assert (Hl3 : length (nodes a3) = length (nodes a)).
  { cbn. rewrite upd_length. congruence. }
  (* used slots after the two insertions *)
  assert (Hperm : Permutation (mh :: lh :: hs (plug p t) ++ O) (hsp p ++ hs t' ++ O)).
  { rewrite (perm_plug_O p t O).
    assert (Hht : Permutation (hs t') (mh :: lh :: hs t)).
    { transitivity (rt t :: mh :: lh :: subhs t).
      - unfold t'. destruct b; cbn [hs]; rewrite hs_reh; cbn [app]; apply perm_skip.
        + apply perm_skip. apply Permutation_sym, Permutation_cons_append.
        + apply perm_swap.
      - rewrite hs_sub. transitivity (mh :: rt t :: lh :: subhs t).
        + apply perm_swap.
        + apply perm_skip. apply perm_swap. }
    rewrite Hht. cbn [app]. rewrite <- !Permutation_middle. reflexivity. }
  assert (Ha3 : ainv a3 (hsp p ++ hs t' ++ O) fl2).
  { eapply ainv_perm; [exact Hperm|]. unfold a3. apply ainv_set_nodes; [exact Ha2| |].
    - apply upd_length.
    - intros x Hx. apply upd_other. intros <-. apply Hx. right; right. assumption. }
  assert (Hfinal : forall ns4, 
     reppath ns4 (set_exp p (mexp t')) (rt t) -> length ns4 = length (nodes a3) ->
     (forall x, ~ In x (hsp p) -> nth_error ns4 x = nth_error (nodes a3) x) ->
     insert_post a r nl (plug p t) O (set_nodes a3 ns4)
       (mkRoot (maybe_node r) (S (leaf_count r))) (inl (lh, None))).
  { intros ns4 Hr4 Hlen4 Ho4.
    exists (plug (set_exp p (mexp t')) t'), fl2.
    assert (Hndp : NoDup (hsp p ++ hs t' ++ O)).
    { apply ainv_nodup in Ha3. apply nodup_app_l in Ha3. exact Ha3. }
    split; [|split; [|split; [|split; [|split; [|split]]]]].
    - eapply ainv_perm; [symmetry; apply perm_plug_O|]. rewrite set_exp_hsp.
      apply ainv_set_nodes; [exact Ha3|exact Hlen4|].
      intros x Hx. apply Ho4. intros Hc. apply Hx. apply in_or_app; auto.
    - cbn [nodes set_nodes]. apply rep_plug. rewrite Hrt'. split; [|exact Hr4].
      eapply rep_frame; [|exact Hrep3]. intros x Hx. apply Ho4. intros Hc.
      eapply nodup_app_disj; [exact Hndp|exact Hc|]. apply in_or_app; auto.
    - apply wf_plug. split; [exact Hwt'|]. split.
      + eapply wfp_set_exp. exact Hwp.
      + intros l Hl. apply fits_set_exp. unfold t' in Hl. destruct b; cbn [lvs] in Hl;
          rewrite lvs_reh in Hl.
        * apply in_app_or in Hl as [Hl|[<-|[]]]; auto.
        * destruct Hl as [<-|Hl]; auto.
    - rewrite set_exp_hplug. apply rt_plug. exact Hrt'.
    - cbn. rewrite Hlen4. exact Hl3.
    - intros x Hx. cbn [nodes set_nodes]. rewrite Ho4.
      + apply Hoth3; [apply in_or_app; auto|]. intros ->.
        eapply nodup_app_disj; [apply nodup_app_r in Hnd; exact Hnd|apply rt_in|exact Hx].
      + intros Hc. eapply nodup_app_disj; [exact Hndp|exact Hc|]. apply in_or_app; auto.
    - right; left. rewrite !lvs_plug, set_exp_prel, set_exp_postl.
      unfold t'. destruct b; cbn [lvs]; rewrite lvs_reh.
      + exists lh, (prel p ++ lvs t), (postl p).
        split; [reflexivity|]. split; [rewrite lvs_plug in Habs; exact Habs|].
        split; [rewrite <- app_assoc; reflexivity|]. split; [rewrite <- !app_assoc; reflexivity|].
        split; [reflexivity|]. split; [|cbn [length] in Hc2; lia].
        apply hlvs_plug_in. cbn [hlvs]. apply in_or_app; right. left; reflexivity.
      + exists lh, (prel p), (lvs t ++ postl p).
        split; [reflexivity|]. split; [rewrite lvs_plug in Habs; exact Habs|].
        split; [reflexivity|]. split; [reflexivity|].
        split; [reflexivity|]. split; [|cbn [length] in Hc2; lia].
        apply hlvs_plug_in. cbn [hlvs]. left; reflexivity. }
  destruct (Z.ltb_spec (expiry nl) (mexp t)) as [Hlt|Hge].
  - destruct (update_parents_ok p a3 (mexp t) (expiry nl) (rt t) Hwp Hrp3)
      as (ns4 & Hu & Hr4 & Hlen4 & Ho4).
    { apply nodup_app_l in Hnd. exact Hnd. }
    rewrite Hu. eexists _, _, _. split; [reflexivity|].
    apply Hfinal; auto. rewrite Hme', Z.min_l by lia. exact Hr4.
  - eexists _, _, _. split; [reflexivity|].
    replace a3 with (set_nodes a3 (nodes a3)) by (destruct a3; reflexivity).
    apply Hfinal; auto. rewrite Hme', Z.min_r by lia.
    rewrite set_exp_same by exact Hwp. exact Hrp3.
Qed.

Lemma insert_loop_ok t : forall p fuel a r nl O fl,
  ainv a (hs (plug p t) ++ O) fl -> rep (nodes a) (plug p t) -> wf (plug p t) ->
  leaf_ok nl -> fits p (l_key nl) -> (length (hs t) <= fuel)%nat ->
  exists a' r' rs, insert_loop fuel a r nl (stk p) (rt t) = Some (a', r', rs) /\
    insert_post a r nl (plug p t) O a' r' rs.
Proof.
  induction t as [h l|h plen key e0 e1 ta IHa tb IHb];
    intros p fuel a r nl O fl Ha Hr Hw Hok Hfit Hfuel;
    (destruct fuel as [|fuel]; [cbn [hs length] in Hfuel; lia|]); cbn [insert_loop].
  - pose proof (proj1 (rep_plug _ _ _) Hr) as (Hrt & Hrp).
    pose proof (proj1 (wf_plug _ _) Hw) as (Hwt & Hwp & Hft).
    cbn [rt]. cbn [rep rt] in Hrt, Hrp. rewrite (node_leaf _ _ _ Hrt).
    destruct (Z.eqb_spec (l_key l) (l_key nl)) as [Hk|Hk].
    + pose proof (nodup_hsp _ _ _ _ _ Ha) as Hnd.
      set (a1 := set_nodes a (upd (nodes a) h (NLeaf nl))).
      assert (Hhp : forall x, In x (hsp p) -> x <> h).
      { intros x Hx ->. eapply nodup_app_disj; [exact Hnd|exact Hx|]. left; reflexivity. }
      destruct (update_parents_ok p a1 (expiry l) (expiry nl) h Hwp) as (ns4 & Hu & Hr4 & Hlen4 & Ho4).
      { eapply reppath_frame; [|exact Hrp]. intros x Hx. cbn. apply upd_other.
        intros He. apply (Hhp x Hx). congruence. }
      { apply nodup_app_l in Hnd. exact Hnd. }
      rewrite Hu. eexists _, _, _. split; [reflexivity|].
      assert (Hhl : (h < length (nodes a))%nat) by (eapply nth_some_lt; exact Hrt).
      exists (plug (set_exp p (expiry nl)) (CL h nl)), fl.
      split; [|split; [|split; [|split; [|split; [|split]]]]].
      * eapply ainv_perm; [symmetry; apply perm_plug_O|]. rewrite set_exp_hsp.
        eapply ainv_perm in Ha; [|apply perm_plug_O]. cbn [hs] in *.
        change (set_nodes a1 ns4) with (set_nodes a ns4).
        apply ainv_set_nodes; [exact Ha|rewrite Hlen4; apply upd_length|].
        intros x Hx. rewrite Ho4.
        -- cbn. apply upd_other. intros <-. apply Hx. apply in_or_app; right. left; reflexivity.
        -- intros Hc. apply Hx. apply in_or_app; auto.
      * cbn [nodes set_nodes]. apply rep_plug. cbn [rt rep]. split; [|exact Hr4].
        rewrite Ho4; [cbn; apply upd_same; exact Hhl|].
        intros Hc. apply (Hhp h Hc). reflexivity.
      * apply wf_plug. cbn [wf mexp lvs]. split; [exact Hok|]. split.
        -- eapply wfp_set_exp. exact Hwp.
        -- intros l' [<-|[]]. apply fits_set_exp. exact Hfit.
      * rewrite set_exp_hplug. apply rt_plug. reflexivity.
      * cbn. rewrite Hlen4. cbn. apply upd_length.
      * intros x Hx. cbn [nodes set_nodes]. rewrite Ho4.
        -- cbn. apply upd_other. intros <-.
           apply nodup_app_r in Hnd. cbn in Hnd. inversion Hnd; contradiction.
        -- intros Hc. eapply nodup_app_disj; [exact Hnd|exact Hc|]. apply in_or_app; auto.
      * left. exists l, h, (prel p), (postl p). rewrite !lvs_plug, set_exp_prel, set_exp_postl.
        cbn [lvs app]. repeat split; auto. apply hlvs_plug_in. left; reflexivity.
    + exact (place_ok p (CL h l) a r nl O fl Ha Hr Hw Hok Hfit Hk).
  - pose proof (proj1 (rep_plug _ _ _) Hr) as (Hrt & Hrp).
    pose proof (proj1 (wf_plug _ _) Hw) as (Hwt & Hwp & Hft).
    cbn [rt]. cbn [rep rt] in Hrt, Hrp. destruct Hrt as (Hn & Hra & Hrb).
    rewrite (node_inner _ _ _ Hn). cbn [i_key i_plen].
    cbn [wf] in Hwt. destruct Hwt as (Hpl & Hkey & Hwa & Hwb & He0 & He1 & Hla & Hlb).
    change (clz128 (Z.lxor key (l_key nl))) with (shared key (l_key nl)).
    destruct (Z.leb_spec plen (shared key (l_key nl))) as [Hle|Hgt].
    + unfold walk_down. cbn [i_plen]. rewrite crit_bit_spec by exact Hpl.
      apply shared_pre in Hle; [|assumption|apply Hok|assumption].
      cbn [hs length] in Hfuel. rewrite app_length in Hfuel.
      destruct (bitat plen (l_key nl)) eqn:Hb; unfold child; cbn [i_c0 i_c1].
      * specialize (IHb (mkFrame h plen key true e1 e0 ta :: p) fuel a r nl O fl).
        cbn [stk map f_h f_b plug plug1 f_plen f_key f_e f_eo f_sib] in IHb.
        apply IHb; auto; [|lia]. constructor; [|exact Hfit].
        split; [exact Hle|exact Hb].
      * specialize (IHa (mkFrame h plen key false e0 e1 tb :: p) fuel a r nl O fl).
        cbn [stk map f_h f_b plug plug1 f_plen f_key f_e f_eo f_sib] in IHa.
        apply IHa; auto; [|lia]. constructor; [|exact Hfit].
        split; [exact Hle|exact Hb].
    + unfold inner_expiry. cbn [i_e0 i_e1]. rewrite He0, He1.
      pose proof (place_ok p (CN h plen key e0 e1 ta tb) a r nl O fl Ha Hr Hw Hok Hfit ltac:(exact Hgt)) as Hpo.
      cbn [ckey mexp tcontents rt] in Hpo. unfold shared in Hpo at 1.
      rewrite He0, He1 in Hpo. exact Hpo.
Qed.
