(** Correctness of removal, queries and iteration; sortedness. *)
From Coq Require Import List ZArith Lia Bool Arith Permutation Sorted.
From Verif Require Import OrderTree KeyBits OrderTreeRep OrderTreeOps.
Import ListNotations.
Open Scope Z_scope.

Definition ohs (o : option ctree) : list nat := match o with None => [] | Some t => hs t end.
Definition olvs (o : option ctree) : list leaf := match o with None => [] | Some t => lvs t end.
Definition ohlvs (o : option ctree) : list (nat * leaf) := match o with None => [] | Some t => hlvs t end.

(** the arena + root represent tree [o]; [O] are slots used by others *)
Record trep (a : arena) (r : root) (o : option ctree) (O fl : list nat) : Prop := {
  tr_ainv : ainv a (ohs o ++ O) fl;
  tr_tree : match o with
            | None => leaf_count r = 0%nat
            | Some t => maybe_node r = rt t /\ leaf_count r = length (lvs t) /\
                        rep (nodes a) t /\ wf t
            end }.

Lemma nodup_lt_length (l : list nat) n : NoDup l -> (forall x, In x l -> (x < n)%nat) ->
  (length l <= n)%nat.
Proof.
  intros Hn Hl. rewrite <- (seq_length n 0). apply NoDup_incl_length; [assumption|].
  intros x Hx. apply in_seq. specialize (Hl x Hx). lia.
Qed.

Lemma hs_length_le a t O fl : ainv a (hs t ++ O) fl -> (length (hs t) <= length (nodes a))%nat.
Proof.
  intros H. pose proof (ainv_used_len _ _ _ H) as Hl. rewrite app_length in Hl.
  pose proof (ai_bump _ _ _ H). lia.
Qed.

Lemma insert_leaf_ok a r o O fl nl : trep a r o O fl -> leaf_ok nl ->
  exists a' r' rs o' fl',
    insert_leaf a r nl = Some (a', r', rs) /\ trep a' r' o' O fl' /\
    length (nodes a') = length (nodes a) /\
    (forall x, In x O -> nth_error (nodes a') x = nth_error (nodes a) x) /\
    ((exists old h A B, rs = inl (h, Some old) /\ l_key old = l_key nl /\
        olvs o = A ++ old :: B /\ olvs o' = A ++ nl :: B /\ In (h, nl) (ohlvs o'))
     \/ (exists h A B, rs = inl (h, None) /\
          (forall l, In l (olvs o) -> l_key l <> l_key nl) /\
          olvs o = A ++ B /\ olvs o' = A ++ nl :: B /\ In (h, nl) (ohlvs o') /\
          (length (ohs o ++ O) + (if o then 2 else 1) <= length (nodes a))%nat)
     \/ (rs = inr tt /\ (forall l, In l (olvs o) -> l_key l <> l_key nl) /\
          olvs o' = olvs o /\
          (length (nodes a) < length (ohs o ++ O) + (if o then 2 else 1))%nat)).
Proof.
  intros [Ha Ht] Hok. unfold insert_leaf, root_node. destruct o as [T|]; cbn [ohs olvs ohlvs] in *.
  - destruct Ht as (Hm & Hc & Hr & Hw). rewrite Hc.
    destruct (length (lvs T)) as [|n] eqn:Hn.
    { exfalso. apply length_zero_iff_nil in Hn. exact (lvs_nonempty _ Hn). }
    rewrite Hm.
    destruct (insert_loop_ok T [] (S (length (nodes a))) a r nl O fl Ha Hr Hw Hok)
      as (a' & r' & rs & Hrun & T' & fl' & Ha' & Hr' & Hw' & Hrt' & Hlen & Hoth & Hcases).
    { constructor. } { pose proof (hs_length_le _ _ _ _ Ha). lia. }
    cbn [stk map plug] in *. rewrite Hrun.
    exists a', r', rs, (Some T'), fl'. cbn [olvs ohlvs].
    split; [reflexivity|].
    destruct Hcases as [(old & h & A & B & H1 & H2 & H3 & H4 & H5 & H6)
                       |[(h & A & B & H1 & H2 & H3 & H4 & H5 & H6 & H7)|(H1 & H2 & H3 & H4 & H5)]].
    + split; [|split; [assumption|split; [assumption|left; exists old, h, A, B; auto]]].
      constructor; [exact Ha'|]. subst r'. rewrite H4. rewrite H3 in Hn. rewrite !app_length in *.
      cbn [length] in *. repeat split; auto; try congruence; lia.
    + split; [|split; [assumption|split; [assumption|right; left; exists h, A, B; auto 10]]].
      constructor; [exact Ha'|]. subst r'. cbn. rewrite H4. rewrite H3 in Hn. rewrite !app_length in *.
      cbn [length] in *. repeat split; auto; try congruence; lia.
    + split; [|split; [assumption|split; [assumption|right; right; auto 10]]].
      constructor; [exact Ha'|]. subst r'. rewrite H3, Hn. repeat split; auto; congruence.
  - rewrite Ht. pose proof (slot_insert_ok a _ fl (NLeaf nl) Ha) as Hi. cbn [app] in *.
    destruct (Nat.ltb_spec (length O) (length (nodes a))) as [Hc|Hc].
    + destruct Hi as (a' & h & fl' & Hrun & Ha' & Hni & Hlen & Hh & Hoth). rewrite Hrun.
      exists a', (mkRoot h 1), (inl (h, None)), (Some (CL h nl)), fl'.
      split; [reflexivity|]. split; [|split; [assumption|split; [assumption|]]].
      { constructor; [exact Ha'|]. cbn. repeat split; auto; apply Hok. }
      right; left. exists h, [], []. cbn. repeat split; auto; try lia.
    + rewrite Hi. exists a, r, (inr tt), None, fl.
      split; [reflexivity|]. split; [constructor; auto|]. split; [reflexivity|]. split; [auto|].
      right; right. cbn. repeat split; auto; lia.
Qed.

(** ** removal *)
Definition bfits (p : list frame) (k : Z) : Prop := Forall (fun f => bitat (f_plen f) k = f_b f) p.

Lemma path_absent_b p e k : wfp p e -> bfits p k ->
  forall l, In l (prel p ++ postl p) -> l_key l <> k.
Proof.
  revert e; induction p as [|f p IH]; intros e; cbn [wfp prel postl]; [intros _ _ l []|].
  intros (H1 & H2 & H3 & H4 & H5 & H6 & H7) Hf l Hl.
  inversion Hf as [|? ? Hy Hz]; subst.
  assert (Hcase : In l (lvs (f_sib f)) \/ In l (prel p ++ postl p)).
  { destruct (f_b f); rewrite ?app_nil_r in Hl; cbn [app] in Hl.
    - rewrite <- app_assoc in Hl. apply in_app_or in Hl as [Hl|Hl]; [right; apply in_or_app; auto|].
      apply in_app_or in Hl as [Hl|Hl]; [auto|right; apply in_or_app; auto].
    - apply in_app_or in Hl as [Hl|Hl]; [right; apply in_or_app; auto|].
      apply in_app_or in Hl as [Hl|Hl]; [auto|right; apply in_or_app; auto]. }
  destruct Hcase as [Hs|Ho].
  - destruct (H6 l Hs) as (_ & Hb & _). intros He. rewrite He, Hy in Hb.
    destruct (f_b f); discriminate.
  - eapply IH; eassumption.
Qed.

Lemma remove_walk_ok k t : forall p fuel a,
  rep (nodes a) (plug p t) -> wf (plug p t) -> bfits p k -> (length (hs t) <= fuel)%nat ->
  (exists p' h l, remove_walk fuel a k (stk p) (rt t) = Some (Some (stk (p' ++ p), h)) /\
      plug p t = plug (p' ++ p) (CL h l) /\ l_key l = k)
  \/ (remove_walk fuel a k (stk p) (rt t) = Some None /\
      forall l, In l (lvs (plug p t)) -> l_key l <> k).
Proof.
  induction t as [h l|h plen key e0 e1 ta IHa tb IHb];
    intros p fuel a Hr Hw Hfit Hfuel;
    (destruct fuel as [|fuel]; [cbn [hs length] in Hfuel; lia|]); cbn [remove_walk rt].
  - pose proof (proj1 (rep_plug _ _ _) Hr) as (Hrt & Hrp). cbn [rep] in Hrt.
    rewrite (node_leaf _ _ _ Hrt).
    destruct (Z.eqb_spec (l_key l) k) as [Hk|Hk].
    + left. exists [], h, l. auto.
    + right. split; [reflexivity|]. intros l' Hl'. rewrite lvs_plug in Hl'.
      pose proof (proj1 (wf_plug _ _) Hw) as (_ & Hwp & _).
      apply in_app_or in Hl' as [Hl'|Hl']; [|apply in_app_or in Hl' as [Hl'|Hl']].
      * eapply path_absent_b; [exact Hwp|exact Hfit|]. apply in_or_app; auto.
      * destruct Hl' as [<-|[]]. exact Hk.
      * eapply path_absent_b; [exact Hwp|exact Hfit|]. apply in_or_app; auto.
  - pose proof (proj1 (rep_plug _ _ _) Hr) as (Hrt & Hrp).
    pose proof (proj1 (wf_plug _ _) Hw) as (Hwt & Hwp & Hft).
    cbn [rep] in Hrt. destruct Hrt as (Hn & Hra & Hrb). rewrite (node_inner _ _ _ Hn).
    cbn [wf] in Hwt. destruct Hwt as (Hpl & _).
    unfold walk_down. cbn [i_plen]. rewrite crit_bit_spec by exact Hpl.
    cbn [hs length] in Hfuel. rewrite app_length in Hfuel.
    destruct (bitat plen k) eqn:Hb; unfold child; cbn [i_c0 i_c1].
    + specialize (IHb (mkFrame h plen key true e1 e0 ta :: p) fuel a).
      cbn [stk map f_h f_b plug plug1 f_plen f_key f_e f_eo f_sib] in IHb.
      destruct IHb as [(p' & h' & l' & H1 & H2 & H3)|[H1 H2]]; auto; try lia.
      { constructor; [exact Hb|exact Hfit]. }
      left. exists (p' ++ [mkFrame h plen key true e1 e0 ta]), h', l'.
      rewrite <- !app_assoc. cbn [app]. split; [|split]; auto.
    + specialize (IHa (mkFrame h plen key false e0 e1 tb :: p) fuel a).
      cbn [stk map f_h f_b plug plug1 f_plen f_key f_e f_eo f_sib] in IHa.
      destruct IHa as [(p' & h' & l' & H1 & H2 & H3)|[H1 H2]]; auto; try lia.
      { constructor; [exact Hb|exact Hfit]. }
      left. exists (p' ++ [mkFrame h plen key false e0 e1 tb]), h', l'.
      rewrite <- !app_assoc. cbn [app]. split; [|split]; auto.
Qed.

Lemma update_parents_min p a old new h :
  wfp p (Z.min old new) -> reppath (nodes a) p h -> NoDup (hsp p) ->
  exists ns', update_parents a (stk p) old new = Some (set_nodes a ns') /\
    reppath ns' (set_exp p new) h /\ length ns' = length (nodes a) /\
    (forall x, ~ In x (hsp p) -> nth_error ns' x = nth_error (nodes a) x).
Proof.
  intros Hw Hr Hnd. destruct (Z_le_gt_dec old new) as [Hle|Hgt].
  - rewrite Z.min_l in Hw by lia. eapply update_parents_ok; eassumption.
  - rewrite Z.min_r in Hw by lia. exists (nodes a).
    assert (Hsn : set_nodes a (nodes a) = a) by (destruct a; reflexivity).
    rewrite Hsn, set_exp_same by exact Hw. split; [|auto].
    destruct p as [|f p]; [reflexivity|]. cbn [stk map update_parents].
    cbn [reppath] in Hr. destruct Hr as (Hn & _). rewrite (node_inner _ _ _ Hn).
    cbn [wfp] in Hw. destruct Hw as (_ & _ & _ & He & _).
    assert (Hce : child_exp (frame_inner f h) (f_b f) = f_e f).
    { unfold child_exp, frame_inner; destruct (f_b f); reflexivity. }
    rewrite Hce, He. replace (new =? old) with false by (symmetry; apply Z.eqb_neq; lia).
    reflexivity.
Qed.

(** ordertree.rs:235-250: splice out the leaf and its parent *)
Lemma remove_splice_ok f p ch l a r O fl n :
  let T := plug (f :: p) (CL ch l) in
  ainv a (hs T ++ O) fl -> rep (nodes a) T -> wf T -> leaf_count r = S n ->
  exists a4 fl',
    match node a (f_h f) with
    | Some (NInner pi) =>
        let oh := child pi (negb (f_b f)) in
        match slot_remove a oh with
        | None => None
        | Some (a1, oc) =>
            match node_expiry oc, node a1 (f_h f) with
            | Some new_exp, Some _ =>
                let a2 := set_nodes a1 (upd (nodes a1) (f_h f) oc) in
                match leaf_count r with
                | O => None
                | S n =>
                    match slot_remove a2 ch with
                    | Some (a3, NLeaf rl) =>
                        match update_parents a3 (stk p) (expiry rl) new_exp with
                        | None => None
                        | Some a4 => Some (a4, mkRoot (maybe_node r) n, Some rl)
                        end
                    | _ => None
                    end
                end
            | _, _ => None
            end
        end
    | _ => None
    end = Some (a4, mkRoot (maybe_node r) n, Some l) /\
    let T' := plug (set_exp p (mexp (f_sib f))) (reh (f_sib f) (f_h f)) in
    ainv a4 (hs T' ++ O) fl' /\ rep (nodes a4) T' /\ wf T' /\ rt T' = rt T /\
    length (nodes a4) = length (nodes a) /\
    (forall x, In x O -> nth_error (nodes a4) x = nth_error (nodes a) x) /\
    exists A B, lvs T = A ++ l :: B /\ lvs T' = A ++ B.
Proof.
  intros T Ha Hr Hw Hcnt. unfold T in *. cbn [plug] in *.
  pose proof (proj1 (rep_plug _ _ _) Hr) as (Hrt & Hrp).
  pose proof (proj1 (wf_plug _ _) Hw) as (Hwt & Hwp & Hft).
  rewrite rt_plug1 in Hrp.
  set (sib := f_sib f) in *.
  assert (Hparent : nth_error (nodes a) (f_h f) = Some (NInner (frame_inner f ch)) /\
                    rep (nodes a) sib /\ nth_error (nodes a) ch = Some (NLeaf l)).
  { unfold plug1, frame_inner in *. destruct (f_b f); cbn [rep rt] in Hrt; tauto. }
  destruct Hparent as (Hpn & Hrsib & Hch).
  assert (Hwsib : wf sib) by (unfold plug1 in Hwt; destruct (f_b f); cbn [wf] in Hwt; tauto).
  assert (Hlok : leaf_ok l) by (unfold plug1 in Hwt; destruct (f_b f); cbn [wf] in Hwt; tauto).
  assert (Hme : mexp (plug1 f (CL ch l)) = Z.min (expiry l) (mexp sib)).
  { unfold plug1; destruct (f_b f); cbn [mexp]; [apply Z.min_comm|reflexivity]. }
  rewrite Hme in Hwp.
  (* handles *)
  assert (Hperm : Permutation (hs (plug p (plug1 f (CL ch l))) ++ O)
                    (rt sib :: ch :: f_h f :: hsp p ++ subhs sib ++ O)).
  { rewrite perm_plug_O.
    assert (Hh : Permutation (hs (plug1 f (CL ch l))) (rt sib :: ch :: f_h f :: subhs sib)).
    { transitivity (f_h f :: rt sib :: ch :: subhs sib).
      - unfold plug1; fold sib; destruct (f_b f); cbn [hs]; rewrite hs_sub; cbn [app]; apply perm_skip.
        + apply perm_skip. apply Permutation_sym, Permutation_cons_append.
        + apply perm_swap.
      - transitivity (rt sib :: f_h f :: ch :: subhs sib).
        + apply perm_swap.
        + apply perm_skip. apply perm_swap. }
    rewrite Hh. cbn [app]. rewrite <- !Permutation_middle. reflexivity. }
  assert (Hnd : NoDup (rt sib :: ch :: f_h f :: hsp p ++ subhs sib ++ O)).
  { eapply Permutation_NoDup; [exact Hperm|]. apply ainv_nodup in Ha. apply nodup_app_l in Ha. exact Ha. }
  inversion Hnd as [|x1 xs1 Hn1 Hnd1]; subst x1 xs1.
  inversion Hnd1 as [|x1 xs1 Hn2 Hnd2]; subst x1 xs1.
  inversion Hnd2 as [|x1 xs1 Hn3 Hnd3]; subst x1 xs1.
  eapply ainv_perm in Ha; [|exact Hperm].
  rewrite (node_inner _ _ _ Hpn).
  assert (Hoh : child (frame_inner f ch) (negb (f_b f)) = rt sib).
  { unfold child, frame_inner; destruct (f_b f); reflexivity. }
  cbn zeta. rewrite Hoh.
  destruct (slot_remove_ok a _ fl (rt sib) (tcontents sib) Ha) as (a1 & Hrm1 & Ha1 & Hlen1 & Hoth1).
  { apply node_tcontents. apply rep_contents. exact Hrsib. }
  rewrite Hrm1, node_expiry_tcontents by exact Hwsib.
  assert (Hps : f_h f <> rt sib). { intros He. apply Hn1. rewrite He. right; left; reflexivity. }
  assert (Hcs : ch <> rt sib). { intros He. apply Hn1. rewrite He. left; reflexivity. }
  assert (Hpc : f_h f <> ch). { intros He. apply Hn2. rewrite He. left; reflexivity. }
  rewrite (node_inner a1 (f_h f) (frame_inner f ch)) by (rewrite Hoth1 by assumption; exact Hpn).
  set (a2 := set_nodes a1 (upd (nodes a1) (f_h f) (tcontents sib))).
  rewrite Hcnt.
  assert (Hplt : (f_h f < length (nodes a1))%nat).
  { rewrite Hlen1. eapply nth_some_lt. exact Hpn. }
  assert (Ha2 : ainv a2 (ch :: f_h f :: hsp p ++ subhs sib ++ O) (rt sib :: fl)).
  { unfold a2. apply ainv_set_nodes; [exact Ha1|apply upd_length|].
    intros x Hx. apply upd_other. intros <-. apply Hx. right; left; reflexivity. }
  destruct (slot_remove_ok a2 _ _ ch (NLeaf l) Ha2) as (a3 & Hrm3 & Ha3 & Hlen3 & Hoth3).
  { apply node_leaf. cbn. rewrite upd_other by assumption. rewrite Hoth1 by assumption. exact Hch. }
  rewrite Hrm3.
  assert (Hoth : forall x, x <> rt sib -> x <> ch -> x <> f_h f ->
            nth_error (nodes a3) x = nth_error (nodes a) x).
  { intros x H1 H2 H3. rewrite Hoth3 by assumption. cbn. rewrite upd_other by congruence.
    apply Hoth1; assumption. }
  assert (Hrest : forall x, In x (hsp p ++ subhs sib ++ O) ->
            nth_error (nodes a3) x = nth_error (nodes a) x).
  { intros x Hx. apply Hoth; intros ->.
    - apply Hn1. right; right. exact Hx.
    - apply Hn2. right. exact Hx.
    - apply Hn3. exact Hx. }
  destruct (update_parents_min p a3 (expiry l) (mexp sib) (f_h f) Hwp) as (ns4 & Hu & Hr4 & Hlen4 & Ho4).
  { eapply reppath_frame; [|exact Hrp]. intros x Hx. apply Hrest. apply in_or_app; auto. }
  { apply nodup_app_l in Hnd3. exact Hnd3. }
  rewrite Hu. exists (set_nodes a3 ns4), (ch :: rt sib :: fl). split; [reflexivity|].
  assert (Hnp : ~ In (f_h f) (hsp p)). { intros Hc. apply Hn3. apply in_or_app; auto. }
  cbn [nodes set_nodes].
  split; [|split; [|split; [|split; [|split; [|split]]]]].
  - eapply ainv_perm; [symmetry; apply perm_plug_O|]. rewrite set_exp_hsp, hs_reh.
    eapply ainv_perm; [cbn [app]; apply Permutation_middle|].
    apply ainv_set_nodes; [exact Ha3|assumption|].
    intros x Hx. apply Ho4. intros Hc. apply Hx. right. apply in_or_app; auto.
  - apply rep_plug. rewrite rt_reh. split; [|exact Hr4].
    eapply rep_reh; [exact Hrsib| |].
    + rewrite Ho4 by exact Hnp. rewrite Hoth3 by assumption. cbn. apply upd_same. exact Hplt.
    + intros x Hx. rewrite Ho4.
      * apply Hrest. apply in_or_app; right. apply in_or_app; auto.
      * intros Hc. eapply nodup_app_disj; [exact Hnd3|exact Hc|]. apply in_or_app; auto.
  - apply wf_plug. split; [apply wf_reh; exact Hwsib|]. split.
    + rewrite mexp_reh. eapply wfp_set_exp. exact Hwp.
    + intros l' Hl'. rewrite lvs_reh in Hl'. apply fits_set_exp. apply Hft.
      unfold plug1; fold sib; destruct (f_b f); cbn [lvs]; apply in_or_app; auto.
  - rewrite set_exp_hplug. apply rt_plug. rewrite rt_reh, rt_plug1. reflexivity.
  - rewrite Hlen4, Hlen3. cbn. rewrite upd_length. exact Hlen1.
  - intros x Hx. rewrite Ho4.
    + apply Hrest. apply in_or_app; right. apply in_or_app; auto.
    + intros Hc. eapply nodup_app_disj; [exact Hnd3|exact Hc|]. apply in_or_app; auto.
  - rewrite !lvs_plug, set_exp_prel, set_exp_postl, lvs_reh.
    unfold plug1; fold sib; destruct (f_b f); cbn [lvs].
    + exists (prel p ++ lvs sib), (postl p). rewrite <- !app_assoc. auto.
    + exists (prel p), (lvs sib ++ postl p). auto.
Qed.

Lemma remove_by_key_ok a r o O fl k : trep a r o O fl ->
  exists a' r' rs o' fl',
    remove_by_key a r k = Some (a', r', rs) /\ trep a' r' o' O fl' /\
    length (nodes a') = length (nodes a) /\
    (forall x, In x O -> nth_error (nodes a') x = nth_error (nodes a) x) /\
    ((exists l A B, rs = Some l /\ l_key l = k /\ olvs o = A ++ l :: B /\ olvs o' = A ++ B)
     \/ (rs = None /\ (forall l, In l (olvs o) -> l_key l <> k) /\ o' = o /\ a' = a /\ r' = r)).
Proof.
  intros Htr. pose proof Htr as [Ha Ht]. unfold remove_by_key, root_node.
  destruct o as [T|]; cbn [ohs olvs] in *.
  - destruct Ht as (Hm & Hc & Hr & Hw).
    destruct (leaf_count r) as [|n] eqn:Hn.
    { exfalso. symmetry in Hc. apply length_zero_iff_nil in Hc. exact (lvs_nonempty _ Hc). }
    rewrite Hm. destruct T as [h l|h plen key e0 e1 ta tb].
    + cbn [rt]. cbn [rep] in Hr. rewrite (node_leaf _ _ _ Hr). cbn [lvs length] in Hc.
      destruct (Z.eqb_spec (l_key l) k) as [Hk|Hk].
      * replace n with 0%nat by lia. cbn [Nat.eqb].
        destruct (slot_remove_ok a O fl h (NLeaf l) Ha) as (a1 & Hrm & Ha1 & Hlen & Hoth).
        { apply node_leaf. exact Hr. }
        rewrite Hrm. exists a1, (mkRoot 0 0), (Some l), None, (h :: fl).
        split; [reflexivity|]. split; [constructor; [exact Ha1|reflexivity]|].
        split; [exact Hlen|]. split.
        { intros x Hx. apply Hoth. intros ->. apply ainv_nodup in Ha. cbn in Ha.
          inversion Ha as [|? ? Hni _]; subst. apply Hni. apply in_or_app; auto. }
        left. exists l, [], []. auto.
      * exists a, r, None, (Some (CL h l)), fl. split; [reflexivity|]. split; [exact Htr|].
        split; [reflexivity|]. split; [auto|]. right. split; [reflexivity|].
        split; [|auto]. intros l' [<-|[]]. exact Hk.
    + set (T := CN h plen key e0 e1 ta tb) in *.
      pose proof Hr as Hr0. pose proof Hw as Hw0.
      cbn [rep wf T] in Hr, Hw. destruct Hr as (Hnode & Hra & Hrb).
      destruct Hw as (Hpl & Hrest).
      cbn [rt T]. rewrite (node_inner _ _ _ Hnode).
      unfold walk_down at 1. cbn [i_plen]. rewrite crit_bit_spec by exact Hpl.
      pose proof (hs_length_le _ _ _ _ Ha) as Hlen. cbn [hs T length] in Hlen.
      rewrite app_length in Hlen.
      assert (Hgoal : forall f t, plug1 f t = T -> f_h f = h -> f_plen f = plen ->
                 f_b f = bitat plen k -> (length (hs t) <= length (nodes a))%nat ->
                 let rw := remove_walk (length (nodes a)) a k [(h, f_b f)] (rt t) in
                 (rw = Some None /\ forall l, In l (lvs T) -> l_key l <> k) \/
                 exists f' p ch l, rw = Some (Some (stk (f' :: p), ch)) /\
                    T = plug (f' :: p) (CL ch l) /\ l_key l = k).
      { intros f t Hpg Hfh Hfp Hfb Hfl. cbn zeta.
        destruct (remove_walk_ok k t [f] (length (nodes a)) a) as [(p' & ch & l & H1 & H2 & H3)|[H1 H2]].
        - cbn [plug]. rewrite Hpg. exact Hr0.
        - cbn [plug]. rewrite Hpg. exact Hw0.
        - constructor; [|constructor]. congruence.
        - exact Hfl.
        - right. cbn [stk map] in H1. rewrite Hfh in H1. cbn [plug] in H2. rewrite Hpg in H2.
          destruct p' as [|f0 p'].
          + exists f, [], ch, l. auto.
          + exists f0, (p' ++ [f]), ch, l. auto.
        - left. cbn [stk map] in H1. rewrite Hfh in H1. cbn [plug] in H2. rewrite Hpg in H2. auto. }
      assert (Hrw : let rw := remove_walk (length (nodes a)) a k [(h, bitat plen k)]
                       (child (mkInner plen key (rt ta) (rt tb) e0 e1) (bitat plen k)) in
                 (rw = Some None /\ forall l, In l (lvs T) -> l_key l <> k) \/
                 exists f' p ch l, rw = Some (Some (stk (f' :: p), ch)) /\
                    T = plug (f' :: p) (CL ch l) /\ l_key l = k).
      { destruct (bitat plen k) eqn:Hb; unfold child; cbn [i_c0 i_c1].
        - apply (Hgoal (mkFrame h plen key true e1 e0 ta) tb); auto; lia.
        - apply (Hgoal (mkFrame h plen key false e0 e1 tb) ta); auto; lia. }
      cbn zeta in Hrw. destruct Hrw as [[Hrw Habs]|(f & p & ch & l & Hrw & HT & Hk)].
      * rewrite Hrw. exists a, r, None, (Some T), fl. split; [reflexivity|]. split; [exact Htr|].
        split; [reflexivity|]. split; [auto|]. right. auto.
      * rewrite Hrw. rewrite <- Hn in Hc. unfold stk at 1. cbn [map]. fold (stk p).
        destruct (remove_splice_ok f p ch l a r O fl n) as (a4 & fl' & Hrun & Ha' & Hr' & Hw' & Hrt' & Hlen' & Hoth' & A & B & HA & HB).
        { rewrite <- HT. exact Ha. } { rewrite <- HT. exact Hr0. } { rewrite <- HT. exact Hw0. }
        { exact Hn. }
        rewrite Hn, Hm in Hrun.
        eexists a4, _, _, (Some _), fl'. split; [exact Hrun|]. cbn [olvs ohs].
        rewrite <- HT in *.
        split; [constructor; [exact Ha'|]|split; [exact Hlen'|split; [exact Hoth'|]]].
        -- cbn [maybe_node leaf_count]. split; [rewrite Hrt'; reflexivity|]. split; [|auto].
           rewrite HB. rewrite HA in Hc. rewrite app_length in *. cbn [length] in Hc. lia.
        -- left. exists l, A, B. auto.
  - rewrite Ht. exists a, r, None, None, fl. split; [reflexivity|]. split; [exact Htr|].
    split; [reflexivity|]. split; [auto|]. right. split; [reflexivity|]. split; [intros l []|auto].
Qed.

(** ** sortedness *)
Definition klt (x y : leaf) : Prop := l_key x < l_key y.

Lemma ssorted_app {A} (R : A -> A -> Prop) l1 l2 :
  StronglySorted R l1 -> StronglySorted R l2 ->
  (forall x y, In x l1 -> In y l2 -> R x y) -> StronglySorted R (l1 ++ l2).
Proof.
  induction l1 as [|x l1 IH]; intros H1 H2 H; cbn [app]; [assumption|].
  inversion H1 as [|? ? Hs Hf]; subst. constructor.
  - apply IH; auto. intros; apply H; [right|]; assumption.
  - apply Forall_app. split; [assumption|]. apply Forall_forall. intros y Hy. apply H; [left|]; auto.
Qed.

Lemma lvs_sorted t : wf t -> StronglySorted klt (lvs t).
Proof.
  induction t as [h l|h plen key e0 e1 ta IHa tb IHb]; cbn [wf lvs].
  - intros _. constructor; constructor.
  - intros (Hpl & Hk & Ha & Hb & _ & _ & Hla & Hlb). apply ssorted_app; auto.
    intros x y Hx Hy. destruct (Hla x Hx) as [H1 H2], (Hlb y Hy) as [H3 H4].
    unfold klt. eapply pre_bit_lt; [exact Hpl| |exact H2|exact H4].
    apply pre_trans with key; [apply pre_sym|]; assumption.
Qed.

(** ** queries *)
Lemma min_max_ok t b : forall fuel a, rep (nodes a) t -> (length (hs t) <= fuel)%nat ->
  exists h l, min_max_loop fuel a b (rt t) = Some (h, l) /\
    (if b then exists A, hlvs t = A ++ [(h, l)] else exists A, hlvs t = (h, l) :: A).
Proof.
  induction t as [h l|h plen key e0 e1 ta IHa tb IHb]; intros fuel a Hr Hf;
    (destruct fuel as [|fuel]; [cbn [hs length] in Hf; lia|]); cbn [min_max_loop rt rep] in *.
  - rewrite (node_leaf _ _ _ Hr). exists h, l. split; [reflexivity|].
    destruct b; exists []; reflexivity.
  - destruct Hr as (Hn & Hra & Hrb). rewrite (node_inner _ _ _ Hn).
    cbn [hs length] in Hf. rewrite app_length in Hf.
    destruct b; unfold child; cbn [i_c0 i_c1].
    + destruct (IHb fuel a Hrb) as (h' & l' & H1 & A & H2); [lia|].
      exists h', l'. split; [assumption|]. exists (hlvs ta ++ A). cbn [hlvs]. rewrite H2.
      rewrite app_assoc. reflexivity.
    + destruct (IHa fuel a Hra) as (h' & l' & H1 & A & H2); [lia|].
      exists h', l'. split; [assumption|]. exists (A ++ hlvs tb). cbn [hlvs]. rewrite H2. reflexivity.
Qed.

Lemma leaf_min_max_ok a r o O fl b : trep a r o O fl ->
  leaf_min_max a r b = Some (if b then nth_error (rev (ohlvs o)) 0 else nth_error (ohlvs o) 0).
Proof.
  intros [Ha Ht]. unfold leaf_min_max, root_node. destruct o as [T|]; cbn [ohlvs ohs] in *.
  - destruct Ht as (Hm & Hc & Hr & Hw). rewrite Hc.
    destruct (length (lvs T)) as [|n] eqn:Hn.
    { exfalso. apply length_zero_iff_nil in Hn. exact (lvs_nonempty _ Hn). }
    rewrite Hm.
    destruct (min_max_ok T b (S (length (nodes a))) a Hr) as (h & l & H1 & H2).
    { pose proof (hs_length_le _ _ _ _ Ha). lia. }
    rewrite H1. destruct b; destruct H2 as [A ->]; [|reflexivity].
    rewrite rev_app_distr. reflexivity.
  - rewrite Ht. destruct b; reflexivity.
Qed.

Lemma earliest_ok t : forall fuel a, rep (nodes a) t -> wf t -> (length (hs t) <= fuel)%nat ->
  exists h l, earliest_loop fuel a (rt t) = Some (h, expiry l) /\
    In (h, l) (hlvs t) /\ expiry l = mexp t.
Proof.
  induction t as [h l|h plen key e0 e1 ta IHa tb IHb]; intros fuel a Hr Hw Hf;
    (destruct fuel as [|fuel]; [cbn [hs length] in Hf; lia|]); cbn [earliest_loop rt rep] in *.
  - rewrite (node_leaf _ _ _ Hr). exists h, l. cbn. auto.
  - destruct Hr as (Hn & Hra & Hrb). rewrite (node_inner _ _ _ Hn).
    cbn [wf] in Hw. destruct Hw as (_ & _ & Hwa & Hwb & He0 & He1 & _).
    cbn [hs length] in Hf. rewrite app_length in Hf. cbn [i_e0 i_e1 mexp hlvs].
    destruct (Z.ltb_spec e1 e0) as [Hlt|Hge]; unfold child; cbn [i_c0 i_c1].
    + destruct (IHb fuel a Hrb Hwb) as (h' & l' & H1 & H2 & H3); [lia|].
      exists h', l'. split; [assumption|]. split; [apply in_or_app; auto|lia].
    + destruct (IHa fuel a Hra Hwa) as (h' & l' & H1 & H2 & H3); [lia|].
      exists h', l'. split; [assumption|]. split; [apply in_or_app; auto|lia].
Qed.

Lemma in_hlvs_lvs t h l : In (h, l) (hlvs t) -> In l (lvs t).
Proof. intros H. rewrite <- hlvs_snd. change l with (snd (h, l)). apply in_map. assumption. Qed.

Lemma remove_one_expired_ok a r o O fl now : trep a r o O fl ->
  exists a' r' rs o' fl',
    remove_one_expired a r now = Some (a', r', rs) /\ trep a' r' o' O fl' /\
    length (nodes a') = length (nodes a) /\
    (forall x, In x O -> nth_error (nodes a') x = nth_error (nodes a) x) /\
    ((exists l A B, rs = Some l /\ expiry l < now /\
        (forall l', In l' (olvs o) -> expiry l <= expiry l') /\
        olvs o = A ++ l :: B /\ olvs o' = A ++ B)
     \/ (rs = None /\ (forall l, In l (olvs o) -> now <= expiry l) /\ o' = o /\ a' = a /\ r' = r)).
Proof.
  intros Htr. pose proof Htr as [Ha Ht]. unfold remove_one_expired, root_node.
  destruct o as [T|]; cbn [ohs olvs] in *.
  - destruct Ht as (Hm & Hc & Hr & Hw). rewrite Hc.
    destruct (length (lvs T)) as [|n] eqn:Hn.
    { exfalso. apply length_zero_iff_nil in Hn. exact (lvs_nonempty _ Hn). }
    rewrite Hm.
    destruct (earliest_ok T (S (length (nodes a))) a Hr Hw) as (h & l & H1 & H2 & H3).
    { pose proof (hs_length_le _ _ _ _ Ha). lia. }
    rewrite H1. destruct (Z.ltb_spec (expiry l) now) as [Hlt|Hge].
    + rewrite (node_leaf a h l) by (eapply rep_hlvs; eassumption). cbn [node_key].
      destruct (remove_by_key_ok a r (Some T) O fl (l_key l) Htr)
        as (a' & r' & rs & o' & fl' & Hrun & Htr' & Hlen & Hoth & Hcase).
      exists a', r', rs, o', fl'. split; [exact Hrun|]. split; [exact Htr'|].
      split; [exact Hlen|]. split; [exact Hoth|]. left.
      destruct Hcase as [(l2 & A & B & -> & Hk & HA & HB)|(_ & Habs & _)].
      * assert (l2 = l).
        { pose proof (lvs_sorted T Hw) as Hs. apply in_hlvs_lvs in H2. cbn [olvs] in HA.
          rewrite HA in Hs, H2. clear - Hs H2 Hk. induction A as [|x A IH]; cbn [app] in *.
          - inversion Hs as [|? ? _ Hf]; subst. destruct H2 as [->|H2]; [reflexivity|].
            rewrite Forall_forall in Hf. specialize (Hf l H2). unfold klt in Hf. lia.
          - inversion Hs as [|? ? Hs' Hf]; subst. rewrite Forall_forall in Hf.
            destruct H2 as [->|H2]; [|auto].
            assert (klt l l2) by (apply Hf; apply in_or_app; right; left; reflexivity).
            unfold klt in *. lia. }
        subst l2. exists l, A, B. split; [reflexivity|]. split; [assumption|]. split; [|auto].
        intros l' Hl'. rewrite H3. apply lvs_in_mexp. assumption.
      * exfalso. eapply Habs; [|reflexivity]. eapply in_hlvs_lvs. eassumption.
    + exists a, r, None, (Some T), fl. split; [reflexivity|]. split; [exact Htr|].
      split; [reflexivity|]. split; [auto|]. right. split; [reflexivity|]. split; [|auto].
      intros l' Hl'. pose proof (lvs_in_mexp T l' Hl'). lia.
  - rewrite Ht. exists a, r, None, None, fl. split; [reflexivity|]. split; [exact Htr|].
    split; [reflexivity|]. split; [auto|]. right. split; [reflexivity|]. split; [intros l []|auto].
Qed.

(** ** iteration *)
Definition itl (left : bool) (t : ctree) : list (nat * leaf) :=
  if left then rev (hlvs t) else hlvs t.

Definition stack_rep (ns : list anynode) (left : bool) (st : list inner) (ts : list ctree) : Prop :=
  Forall2 (fun i t => child i (negb left) = rt t /\ rep ns t) st ts.

Lemma leftmost_ok left t : forall fuel a st ts,
  rep (nodes a) t -> stack_rep (nodes a) left st ts -> (length (hs t) <= fuel)%nat ->
  exists st' ts' x, leftmost fuel a left st (rt t) = Some (st', x) /\
    stack_rep (nodes a) left st' ts' /\
    itl left t ++ flat_map (itl left) ts = x :: flat_map (itl left) ts' /\
    (forall u, In u ts' -> In u ts \/ (length (hs u) <= length (hs t))%nat).
Proof.
  induction t as [h l|h plen key e0 e1 ta IHa tb IHb]; intros fuel a st ts Hr Hst Hf;
    (destruct fuel as [|fuel]; [cbn [hs length] in Hf; lia|]); cbn [leftmost rt rep] in *.
  - rewrite (node_leaf _ _ _ Hr). exists st, ts, (h, l). split; [reflexivity|].
    split; [assumption|]. split; [destruct left; reflexivity|]. auto.
  - destruct Hr as (Hn & Hra & Hrb). rewrite (node_inner _ _ _ Hn).
    cbn [hs length] in *. rewrite app_length in *.
    destruct left; unfold child at 1; cbn [i_c0 i_c1].
    + destruct (IHb fuel a (mkInner plen key (rt ta) (rt tb) e0 e1 :: st) (ta :: ts) Hrb)
        as (st' & ts' & x & H1 & H2 & H3 & H4); [|lia|].
      { constructor; [split; [reflexivity|assumption]|assumption]. }
      exists st', ts', x. split; [assumption|]. split; [assumption|]. split.
      * rewrite <- H3. cbn [flat_map]. unfold itl. cbn [hlvs]. rewrite rev_app_distr.
        rewrite <- app_assoc. reflexivity.
      * intros u Hu. destruct (H4 u Hu) as [[->|Hi]|Hl]; auto; right; lia.
    + destruct (IHa fuel a (mkInner plen key (rt ta) (rt tb) e0 e1 :: st) (tb :: ts) Hra)
        as (st' & ts' & x & H1 & H2 & H3 & H4); [|lia|].
      { constructor; [split; [reflexivity|assumption]|assumption]. }
      exists st', ts', x. split; [assumption|]. split; [assumption|]. split.
      * rewrite <- H3. cbn [flat_map]. unfold itl. cbn [hlvs].
        rewrite <- app_assoc. reflexivity.
      * intros u Hu. destruct (H4 u Hu) as [[->|Hi]|Hl]; auto; right; lia.
Qed.

Lemma iter_loop_ok left : forall fuel2 a st ts x,
  stack_rep (nodes a) left st ts ->
  (length (flat_map (itl left) ts) < fuel2)%nat ->
  (forall u, In u ts -> (length (hs u) <= length (nodes a))%nat) ->
  iter_loop fuel2 a left st x = Some (x :: flat_map (itl left) ts).
Proof.
  induction fuel2 as [|f2 IH]; intros a st ts x Hst Hlen Hb; [lia|]. cbn [iter_loop].
  destruct Hst as [|i t st ts [Hi Hr] Hst]; [reflexivity|].
  rewrite Hi.
  destruct (leftmost_ok left t (S (length (nodes a))) a st ts Hr Hst) as (st' & ts' & y & H1 & H2 & H3 & H4).
  { specialize (Hb t (or_introl eq_refl)). lia. }
  rewrite H1. cbn [flat_map] in *. rewrite H3 in Hlen |- *. cbn [length] in Hlen.
  rewrite (IH a st' ts' y); auto; [lia|].
  intros u Hu. destruct (H4 u Hu) as [H|H]; [apply Hb; right; assumption|].
  specialize (Hb t (or_introl eq_refl)). lia.
Qed.

Lemma hlvs_len t : length (hlvs t) = length (lvs t).
Proof. rewrite <- hlvs_snd, map_length. reflexivity. Qed.

Lemma iter_all_ok bids a r o O fl : trep a r o O fl ->
  iter_all bids a r = Some (if bids then rev (ohlvs o) else ohlvs o).
Proof.
  intros [Ha Ht]. unfold iter_all, root_node. destruct o as [T|]; cbn [ohlvs ohs] in *.
  - destruct Ht as (Hm & Hc & Hr & Hw). rewrite Hc.
    destruct (length (lvs T)) as [|n] eqn:Hn.
    { exfalso. apply length_zero_iff_nil in Hn. exact (lvs_nonempty _ Hn). }
    rewrite Hm. pose proof (hs_length_le _ _ _ _ Ha) as Hle.
    destruct (leftmost_ok bids T (S (length (nodes a))) a [] [] Hr) as (st' & ts' & x & H1 & H2 & H3 & H4).
    { constructor. } { lia. }
    rewrite H1. cbn [flat_map] in H3. rewrite app_nil_r in H3.
    rewrite (iter_loop_ok bids (S (length (nodes a))) a st' ts' x H2).
    + rewrite <- H3. unfold itl. reflexivity.
    + assert (Hl : length (itl bids T) = length (lvs T)).
      { unfold itl. destruct bids; rewrite ?rev_length; apply hlvs_len. }
      rewrite H3 in Hl. cbn [length] in Hl. pose proof (hs_count T). lia.
    + intros u Hu. destruct (H4 u Hu) as [[]|H]. lia.
  - rewrite Ht. destruct bids; reflexivity.
Qed.

(** ** in-place quantity change *)
Definition with_qty (l : leaf) (q : Z) : leaf :=
  mkLeaf (l_owner_slot l) (l_order_type l) (l_tif l) (l_key l) (l_owner l)
         q (l_timestamp l) (l_peg_limit l) (l_client_id l).

Fixpoint setq (t : ctree) (h : nat) (q : Z) : ctree :=
  match t with
  | CL h' l => if Nat.eqb h' h then CL h' (with_qty l q) else t
  | CN h' plen key e0 e1 a b => CN h' plen key e0 e1 (setq a h q) (setq b h q)
  end.

Lemma rt_setq t h q : rt (setq t h q) = rt t.
Proof. destruct t; cbn; [destruct (Nat.eqb _ _)|]; reflexivity. Qed.
Lemma hs_setq t h q : hs (setq t h q) = hs t.
Proof.
  induction t as [h' l|h' plen key e0 e1 ta IHa tb IHb]; cbn [setq hs];
    [destruct (Nat.eqb _ _); reflexivity|congruence].
Qed.
Lemma mexp_setq t h q : mexp (setq t h q) = mexp t.
Proof.
  induction t as [h' l|h' plen key e0 e1 ta IHa tb IHb]; cbn [setq mexp];
    [destruct (Nat.eqb _ _); reflexivity|congruence].
Qed.
Lemma hlvs_setq t h q :
  hlvs (setq t h q) = map (fun x => if Nat.eqb (fst x) h then (fst x, with_qty (snd x) q) else x) (hlvs t).
Proof.
  induction t as [h' l|h' plen key e0 e1 ta IHa tb IHb]; cbn [setq hlvs map fst snd].
  - destruct (Nat.eqb h' h); reflexivity.
  - rewrite map_app. congruence.
Qed.
Lemma lvs_setq_keys t h q l : In l (lvs (setq t h q)) -> exists l', In l' (lvs t) /\ l_key l = l_key l'.
Proof.
  rewrite <- hlvs_snd, hlvs_setq, map_map. intros H. apply in_map_iff in H as ([h' l'] & H1 & H2).
  exists l'. split; [eapply in_hlvs_lvs; eassumption|]. cbn in H1. destruct (Nat.eqb h' h); subst; reflexivity.
Qed.
Lemma wf_setq t h q : wf t -> wf (setq t h q).
Proof.
  induction t as [h' l|h' plen key e0 e1 ta IHa tb IHb]; cbn [setq wf].
  - destruct (Nat.eqb h' h); auto.
  - intros (H1 & H2 & H3 & H4 & H5 & H6 & H7 & H8).
    refine (conj H1 (conj H2 (conj (IHa H3) (conj (IHb H4) (conj _ (conj _ (conj _ _))))))).
    + rewrite mexp_setq; assumption.
    + rewrite mexp_setq; assumption.
    + intros l Hl. apply lvs_setq_keys in Hl as (l' & Hl' & ->). apply H7; assumption.
    + intros l Hl. apply lvs_setq_keys in Hl as (l' & Hl' & ->). apply H8; assumption.
Qed.
Lemma setq_notin t h q : ~ In h (hs t) -> setq t h q = t.
Proof.
  induction t as [h' l|h' plen key e0 e1 ta IHa tb IHb]; cbn [setq hs]; intros Hn.
  - destruct (Nat.eqb_spec h' h) as [->|]; [exfalso; apply Hn; left; reflexivity|reflexivity].
  - rewrite IHa, IHb; [reflexivity| |]; intros Hc; apply Hn; right; apply in_or_app; auto.
Qed.

Lemma rep_setq ns t h l q : rep ns t -> NoDup (hs t) -> In (h, l) (hlvs t) ->
  rep (upd ns h (NLeaf (with_qty l q))) (setq t h q).
Proof.
  induction t as [h' l'|h' plen key e0 e1 ta IHa tb IHb]; cbn [setq rep hs hlvs]; intros Hr Hnd Hin.
  - destruct Hin as [Heq|[]]. inversion Heq; subst. rewrite Nat.eqb_refl. cbn [rep].
    apply upd_same. eapply nth_some_lt; eassumption.
  - destruct Hr as (Hn & Hra & Hrb). inversion Hnd as [|? ? Hni Hnd']; subst.
    assert (Hh : In h (hs ta ++ hs tb)).
    { apply in_app_or in Hin as [H|H]; apply hlvs_in_hs in H; apply in_or_app; auto. }
    assert (Hne : h <> h') by (intros ->; contradiction).
    rewrite !rt_setq. split; [rewrite upd_other by congruence; assumption|].
    apply in_app_or in Hin as [H|H].
    + split; [apply IHa; auto; apply nodup_app_l in Hnd'; assumption|].
      rewrite setq_notin.
      * eapply rep_frame; [|exact Hrb]. intros x Hx. apply upd_other. intros <-.
        eapply nodup_app_disj; [exact Hnd'|eapply hlvs_in_hs; eassumption|assumption].
      * intros Hc. eapply nodup_app_disj; [exact Hnd'|eapply hlvs_in_hs; eassumption|assumption].
    + split; [|apply IHb; auto; apply nodup_app_r in Hnd'; assumption].
      rewrite setq_notin.
      * eapply rep_frame; [|exact Hra]. intros x Hx. apply upd_other. intros <-.
        eapply nodup_app_disj; [exact Hnd'|eassumption|eapply hlvs_in_hs; eassumption].
      * intros Hc. eapply nodup_app_disj; [exact Hnd'|eassumption|eapply hlvs_in_hs; eassumption].
Qed.

Lemma set_quantity_ok a r o O fl h l q : trep a r o O fl -> In (h, l) (ohlvs o) ->
  exists a' o', set_quantity a h q = Some a' /\ trep a' r o' O fl /\
    length (nodes a') = length (nodes a) /\
    (forall x, In x O -> nth_error (nodes a') x = nth_error (nodes a) x) /\
    ohlvs o' = map (fun x => if Nat.eqb (fst x) h then (fst x, with_qty (snd x) q) else x) (ohlvs o).
Proof.
  intros [Ha Ht] Hin. destruct o as [T|]; cbn [ohlvs ohs] in *; [|destruct Hin].
  destruct Ht as (Hm & Hc & Hr & Hw).
  unfold set_quantity. pose proof (rep_hlvs _ _ _ _ Hr Hin) as Hn.
  rewrite (node_leaf _ _ _ Hn). fold (with_qty l q).
  assert (Hnd : NoDup (hs T ++ O)) by (apply ainv_nodup in Ha; apply nodup_app_l in Ha; exact Ha).
  eexists _, (Some (setq T h q)). split; [reflexivity|]. cbn [nodes set_nodes].
  split; [|split; [apply upd_length|split]].
  - constructor; cbn [ohs].
    + rewrite hs_setq. apply ainv_set_nodes; [exact Ha|apply upd_length|].
      intros x Hx. apply upd_other. intros <-. apply Hx. apply in_or_app; left.
      eapply hlvs_in_hs; eassumption.
    + rewrite rt_setq. split; [assumption|]. split; [|split].
      * rewrite <- (hlvs_len (setq T h q)), hlvs_setq, map_length, hlvs_len. assumption.
      * cbn [nodes set_nodes]. apply rep_setq; auto. apply nodup_app_l in Hnd. exact Hnd.
      * apply wf_setq; assumption.
  - intros x Hx. apply upd_other. intros <-.
    eapply nodup_app_disj; [exact Hnd|eapply hlvs_in_hs; eassumption|exact Hx].
  - cbn [ohlvs]. apply hlvs_setq.
Qed.
