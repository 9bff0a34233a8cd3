From Coq Require Import List ZArith Lia Bool Arith Permutation Sorted.
From Verif Require Import OrderTree OrderTreeSpec BookArena KeyBits OrderTreeRep OrderTreeOps OrderTreeOps2.
Import ListNotations.
Open Scope Z_scope.

Definition op_ok (o : op) : Prop := match o with OInsert _ l => leaf_ok l | _ => True end.

(** a book side represents the two order sets *)
Definition bsrep (cap : nat) (s : bookside) (b : book) : Prop :=
  length (nodes (bs_arena s)) = cap /\
  exists o0 o1 fl,
    trep (bs_arena s) (fst (bs_roots s)) o0 (ohs o1) fl /\
    trep (bs_arena s) (snd (bs_roots s)) o1 (ohs o0) fl /\
    Permutation (olvs o0) (fst b) /\ Permutation (olvs o1) (snd b).

(** generic view on one component *)
Lemma bsrep_comp cap s b (c : comp) : bsrep cap s b ->
  length (nodes (bs_arena s)) = cap /\
  exists o oo fl, trep (bs_arena s) (get c (bs_roots s)) o (ohs oo) fl /\
    trep (bs_arena s) (get (negb c) (bs_roots s)) oo (ohs o) fl /\
    Permutation (olvs o) (get c b) /\ Permutation (olvs oo) (get (negb c) b).
Proof.
  intros (Hl & o0 & o1 & fl & H0 & H1 & P0 & P1). split; [assumption|].
  destruct c; cbn [get negb fst snd].
  - exists o1, o0, fl. auto.
  - exists o0, o1, fl. auto.
Qed.

Lemma bsrep_intro cap s b (c : comp) o oo fl :
  length (nodes (bs_arena s)) = cap ->
  trep (bs_arena s) (get c (bs_roots s)) o (ohs oo) fl ->
  trep (bs_arena s) (get (negb c) (bs_roots s)) oo (ohs o) fl ->
  Permutation (olvs o) (get c b) -> Permutation (olvs oo) (get (negb c) b) ->
  bsrep cap s b.
Proof.
  intros Hl H0 H1 P0 P1. split; [assumption|].
  destruct c; cbn [get negb fst snd] in *.
  - exists oo, o, fl. auto.
  - exists o, oo, fl. auto.
Qed.

Lemma trep_other a a' r r2 o' oo O0 fl0 fl :
  trep a' r o' (ohs oo) fl ->
  trep a r2 oo O0 fl0 ->
  (forall x, In x (ohs oo) -> nth_error (nodes a') x = nth_error (nodes a) x) ->
  trep a' r2 oo (ohs o') fl.
Proof.
  intros [Ha' _] [Ha Ht] Hsame. constructor.
  - eapply ainv_perm; [apply Permutation_app_comm|exact Ha'].
  - destruct oo as [t|]; [|assumption]. destruct Ht as (H1 & H2 & H3 & H4).
    repeat split; auto. eapply rep_frame; [|exact H3]. exact Hsame.
Qed.

Lemma olvs_sorted a r o O fl : trep a r o O fl -> StronglySorted klt (olvs o).
Proof.
  intros [_ Ht]. destruct o as [t|]; cbn; [|constructor]. apply lvs_sorted. tauto.
Qed.

Lemma get_set_same {A} (c : comp) (x : A) b : get c (set c x b) = x.
Proof. destruct c; reflexivity. Qed.
Lemma get_set_other {A} (c : comp) (x : A) b : get (negb c) (set c x b) = get (negb c) b.
Proof. destruct c; reflexivity. Qed.
Lemma set_get {A} (c : comp) (b : A * A) : set c (get c b) b = b.
Proof. destruct c, b; reflexivity. Qed.

Lemma sorted_mid_unique A l B l' : StronglySorted klt (A ++ l :: B) ->
  In l' (A ++ l :: B) -> l_key l' = l_key l -> l' = l.
Proof.
  intros Hs Hin Hk. induction A as [|x A IH]; cbn [app] in *.
  - inversion Hs as [|? ? _ Hf]; subst. destruct Hin as [->|H2]; [reflexivity|].
    rewrite Forall_forall in Hf. specialize (Hf l' H2). unfold klt in Hf. lia.
  - inversion Hs as [|? ? Hs' Hf]; subst. rewrite Forall_forall in Hf.
    destruct Hin as [->|H2]; [|auto].
    assert (klt l' l) by (apply Hf; apply in_or_app; right; left; reflexivity).
    unfold klt in *. lia.
Qed.

Lemma without_notin k L : absent k L -> without k L = L.
Proof.
  induction L as [|x L IH]; intros Ha; cbn [without filter]; [reflexivity|].
  assert (l_key x <> k) by (apply Ha; left; reflexivity).
  replace (l_key x =? k) with false by (symmetry; apply Z.eqb_neq; assumption). cbn [negb].
  f_equal. apply IH. intros l Hl. apply Ha. right; assumption.
Qed.

Lemma without_app k L1 L2 : without k (L1 ++ L2) = without k L1 ++ without k L2.
Proof. apply filter_app. Qed.

Lemma without_perm k L1 L2 : Permutation L1 L2 -> Permutation (without k L1) (without k L2).
Proof.
  unfold without. induction 1 as [|x l l' Hp IH|x y l|l1 l2 l3 H1 IH1 H2 IH2]; cbn [filter].
  - constructor.
  - destruct (negb (l_key x =? k)); [constructor|]; assumption.
  - destruct (negb (l_key y =? k)), (negb (l_key x =? k)); try apply Permutation_refl. apply perm_swap.
  - etransitivity; eassumption.
Qed.

Lemma without_mid A l B : StronglySorted klt (A ++ l :: B) ->
  without (l_key l) (A ++ l :: B) = A ++ B.
Proof.
  intros Hs. rewrite without_app. cbn [without filter]. rewrite Z.eqb_refl. cbn [negb].
  fold (without (l_key l) B).
  assert (Hd : forall x, In x (A ++ B) -> l_key x <> l_key l).
  { intros x Hx He.
    assert (HN : NoDup (map l_key (A ++ l :: B))).
    { clear - Hs. induction Hs as [|y L Hs IH Hf]; cbn [map]; [constructor|].
      constructor; [|assumption]. intros Hin. apply in_map_iff in Hin as (z & Hz & Hin).
      rewrite Forall_forall in Hf. specialize (Hf z Hin). unfold klt in Hf. lia. }
    rewrite map_app in HN. cbn [map] in HN. apply NoDup_remove_2 in HN. apply HN.
    rewrite <- map_app, <- He. apply in_map. assumption. }
  rewrite !without_notin; [reflexivity| |]; intros x Hx; apply Hd; apply in_or_app; auto.
Qed.

Lemma olvs_slots a r o O fl : trep a r o O fl -> length (ohs o) = slots (length (olvs o)).
Proof.
  intros _. destruct o as [t|]; [|reflexivity]. cbn [ohs olvs].
  pose proof (hs_count t). destruct (length (lvs t)); cbn [slots]; lia.
Qed.

Lemma absent_perm k L1 L2 : Permutation L1 L2 -> absent k L1 -> absent k L2.
Proof.
  intros Hp Ha l Hl. apply Ha. eapply Permutation_in; [apply Permutation_sym; exact Hp|assumption].
Qed.

Lemma insert_case_room a (c : comp) (b : book) o oo cap :
  length (nodes a) = cap ->
  length (ohs o) = slots (length (olvs o)) -> length (ohs oo) = slots (length (olvs oo)) ->
  Permutation (olvs o) (get c b) -> Permutation (olvs oo) (get (negb c) b) ->
  ((length (ohs o ++ ohs oo) + (if o then 2 else 1) <= length (nodes a))%nat <-> room cap b c).
Proof.
  intros Hcap Ho Hoo Hp Hpo. apply Permutation_length in Hp, Hpo.
  unfold room. rewrite app_length, Ho, Hoo, Hcap, Hp, Hpo.
  assert (Hneed : slots_needed (length (get c b)) = (if o then 2 else 1)%nat).
  { rewrite <- Hp. destruct o as [t|]; [|reflexivity]. cbn [olvs].
    destruct (lvs t) eqn:He; [exfalso; exact (lvs_nonempty _ He)|reflexivity]. }
  rewrite Hneed. destruct c; cbn [get negb]; lia.
Qed.

Lemma bs_step_ok bids cap s b o : bsrep cap s b -> op_ok o ->
  exists s' x b', bs_step bids s o = Some (s', x) /\ spec_step bids cap b o x b' /\ bsrep cap s' b'.
Proof.
  intros Hb Hop. destruct o as [c l|c k|c|c now|c k q];
    destruct (bsrep_comp cap s b c Hb) as (Hcap & o & oo & fl & Ht & Hto & Hp & Hpo);
    cbn [bs_step op_ok] in *.
  - destruct (insert_leaf_ok _ _ _ _ _ l Ht Hop) as (a' & r' & rs & o' & fl' & Hrun & Ht' & Hlen & Hsame & Hcase).
    rewrite Hrun. pose proof (olvs_sorted _ _ _ _ _ Ht) as Hs.
    pose proof (insert_case_room (bs_arena s) c b o oo cap Hcap (olvs_slots _ _ _ _ _ Ht)
                  (olvs_slots _ _ _ _ _ Hto) Hp Hpo) as Hroom.
    assert (Hrep' : forall L, Permutation (olvs o') L ->
              bsrep cap (mkBS (set c r' (bs_roots s)) a') (set c L b)).
    { intros L HL. apply (bsrep_intro _ _ _ c o' oo fl'); cbn [bs_arena bs_roots];
        rewrite ?get_set_same, ?get_set_other; auto; try congruence.
      eapply trep_other; eassumption. }
    destruct Hcase as [(old & h & A & B & -> & Hk & HA & HB & _)
                      |[(h & A & B & -> & Habs & HA & HB & _ & Hsz)|(-> & Habs & HA & Hsz)]].
    + eexists _, _, _. split; [reflexivity|]. split.
      * eapply (S_replace bids cap b c l old); [|exact Hk].
        eapply Permutation_in; [exact Hp|]. rewrite HA. apply in_or_app; right; left; reflexivity.
      * apply Hrep'. rewrite HB.
        rewrite <- (without_perm (l_key l) _ _ Hp), HA, <- Hk.
        rewrite HA in Hs. rewrite without_mid by exact Hs.
        symmetry. apply Permutation_middle.
    + eexists _, _, _. split; [reflexivity|]. split.
      * apply S_insert; [eapply absent_perm; eassumption|]. apply Hroom. exact Hsz.
      * apply Hrep'. rewrite HB, <- Hp, HA. symmetry. apply Permutation_middle.
    + eexists _, _, b. split; [reflexivity|]. split.
      * apply S_full; [eapply absent_perm; eassumption|]. rewrite <- Hroom. lia.
      * rewrite <- (set_get c b). apply Hrep'. rewrite HA. exact Hp.
  - destruct (remove_by_key_ok _ _ _ _ _ k Ht) as (a' & r' & rs & o' & fl' & Hrun & Ht' & Hlen & Hsame & Hcase).
    rewrite Hrun. pose proof (olvs_sorted _ _ _ _ _ Ht) as Hs.
    destruct Hcase as [(l & A & B & -> & Hk & HA & HB)|(-> & Habs & -> & -> & ->)].
    + eexists _, _, _. split; [reflexivity|]. split.
      * apply (S_remove bids cap b c k l); [|exact Hk].
        eapply Permutation_in; [exact Hp|]. rewrite HA. apply in_or_app; right; left; reflexivity.
      * apply (bsrep_intro _ _ _ c o' oo fl'); cbn [bs_arena bs_roots];
          rewrite ?get_set_same, ?get_set_other; auto; try congruence.
        -- eapply trep_other; eassumption.
        -- rewrite HB, <- (without_perm k _ _ Hp), HA, <- Hk. rewrite HA in Hs.
           rewrite without_mid by exact Hs. reflexivity.
    + eexists _, _, b. split; [reflexivity|]. split.
      * apply S_remove_absent. eapply absent_perm; eassumption.
      * rewrite set_get. destruct s; exact Hb.
  - unfold remove_worst, find_worst. rewrite (leaf_min_max_ok _ _ _ _ _ (negb bids) Ht).
    pose proof (olvs_sorted _ _ _ _ _ Ht) as Hs.
    set (w := if negb bids then nth_error (rev (ohlvs o)) 0 else nth_error (ohlvs o) 0).
    assert (Hw : match w with
                 | None => get c b = []
                 | Some (_, l) => In l (get c b) /\ forall l', In l' (get c b) -> l' <> l -> worse bids l l'
                 end).
    { assert (Hol : map snd (ohlvs o) = olvs o).
      { destruct o; cbn; [apply hlvs_snd|reflexivity]. }
      unfold w, worse. destruct bids; cbn [negb].
      - destruct (ohlvs o) as [|[h l] rest] eqn:He; cbn [nth_error].
        + cbn in Hol. rewrite <- Hol in Hp. apply Permutation_nil in Hp. exact Hp.
        + cbn [map snd] in Hol. rewrite <- Hol in Hp, Hs. split.
          * eapply Permutation_in; [exact Hp|left; reflexivity].
          * intros l' Hl' Hne. eapply Permutation_in in Hl'; [|apply Permutation_sym; exact Hp].
            destruct Hl' as [He2|Hl']; [congruence|].
            inversion Hs as [|? ? _ Hf]; subst. rewrite Forall_forall in Hf. apply Hf; assumption.
      - destruct (rev (ohlvs o)) as [|[h l] rest] eqn:He; cbn [nth_error].
        + assert (ohlvs o = []) as H0 by (rewrite <- (rev_involutive (ohlvs o)), He; reflexivity).
          rewrite H0 in Hol. cbn in Hol. rewrite <- Hol in Hp. apply Permutation_nil in Hp. exact Hp.
        + assert (H0 : ohlvs o = rev rest ++ [(h, l)]).
          { rewrite <- (rev_involutive (ohlvs o)), He. reflexivity. }
          rewrite H0, map_app in Hol. cbn [map snd] in Hol. rewrite <- Hol in Hp, Hs. split.
          * eapply Permutation_in; [exact Hp|]. apply in_or_app; right; left; reflexivity.
          * intros l' Hl' Hne. eapply Permutation_in in Hl'; [|apply Permutation_sym; exact Hp].
            apply in_app_or in Hl' as [Hl'|[He2|[]]]; [|congruence].
            clear - Hs Hl'. induction (map snd (rev rest)) as [|x L IH]; [inversion Hl'|].
            cbn [app] in Hs. inversion Hs as [|? ? Hs' Hf]; subst. destruct Hl' as [->|Hl']; [|auto].
            rewrite Forall_forall in Hf. apply Hf. apply in_or_app; right; left; reflexivity. }
    destruct w as [[h l]|].
    + destruct Hw as [Hin Hworst].
      destruct (remove_by_key_ok _ _ _ _ _ (l_key l) Ht) as (a' & r' & rs & o' & fl' & Hrun & Ht' & Hlen & Hsame & Hcase).
      rewrite Hrun.
      assert (Hin' : In l (olvs o)) by (eapply Permutation_in; [apply Permutation_sym; exact Hp|exact Hin]).
      destruct Hcase as [(l2 & A & B & -> & Hk & HA & HB)|(-> & Habs & _)].
      2:{ exfalso. eapply Habs; [exact Hin'|reflexivity]. }
      rewrite HA in Hs, Hin'.
      assert (l2 = l) by (symmetry; eapply sorted_mid_unique; eauto). subst l2.
      eexists _, _, _. split; [reflexivity|]. split.
      * apply S_worst; assumption.
      * apply (bsrep_intro _ _ _ c o' oo fl'); cbn [bs_arena bs_roots];
          rewrite ?get_set_same, ?get_set_other; auto; try congruence.
        -- eapply trep_other; eassumption.
        -- rewrite HB, <- (without_perm _ _ _ Hp), HA.
           rewrite without_mid by exact Hs. reflexivity.
    + eexists _, _, b. split; [reflexivity|]. split.
      * apply S_worst_empty. exact Hw.
      * rewrite set_get. destruct s; exact Hb.
  - destruct (remove_one_expired_ok _ _ _ _ _ now Ht) as (a' & r' & rs & o' & fl' & Hrun & Ht' & Hlen & Hsame & Hcase).
    rewrite Hrun. pose proof (olvs_sorted _ _ _ _ _ Ht) as Hs.
    destruct Hcase as [(l & A & B & -> & He & Hmin & HA & HB)|(-> & Habs & -> & -> & ->)].
    + eexists _, _, _. split; [reflexivity|]. split.
      * apply S_expired; [|exact He|].
        -- eapply Permutation_in; [exact Hp|]. rewrite HA. apply in_or_app; right; left; reflexivity.
        -- intros l' Hl'. apply Hmin. eapply Permutation_in; [apply Permutation_sym; exact Hp|exact Hl'].
      * apply (bsrep_intro _ _ _ c o' oo fl'); cbn [bs_arena bs_roots];
          rewrite ?get_set_same, ?get_set_other; auto; try congruence.
        -- eapply trep_other; eassumption.
        -- rewrite HB, <- (without_perm _ _ _ Hp), HA. rewrite HA in Hs.
           rewrite without_mid by exact Hs. reflexivity.
    + eexists _, _, b. split; [reflexivity|]. split.
      * apply S_none_expired. intros l Hl. apply Habs.
        eapply Permutation_in; [apply Permutation_sym; exact Hp|exact Hl].
      * rewrite set_get. destruct s; exact Hb.
  - rewrite (iter_all_ok bids _ _ _ _ _ Ht). pose proof (olvs_sorted _ _ _ _ _ Ht) as Hs.
    set (L := if bids then rev (ohlvs o) else ohlvs o).
    assert (HL : forall x, In x L <-> In x (ohlvs o)).
    { intros x. unfold L. destruct bids; [|tauto]. rewrite <- in_rev. tauto. }
    assert (Hol : map snd (ohlvs o) = olvs o).
    { destruct o; cbn; [apply hlvs_snd|reflexivity]. }
    destruct (find (fun x => l_key (snd x) =? k) L) as [[h l]|] eqn:Hf.
    + apply find_some in Hf as [Hin Hk]. apply Z.eqb_eq in Hk. cbn in Hk. apply HL in Hin.
      destruct (set_quantity_ok _ _ _ _ _ h l q Ht Hin) as (a' & o' & Hrun & Ht' & Hlen & Hsame & Ho').
      rewrite Hrun. eexists _, _, _. split; [reflexivity|].
      assert (Hinl : In l (olvs o)) by (rewrite <- Hol; apply (in_map snd) in Hin; exact Hin).
      split.
      * apply S_setqty. exists l. split; [|exact Hk]. eapply Permutation_in; [exact Hp|exact Hinl].
      * apply (bsrep_intro _ _ _ c o' oo fl); cbn [bs_arena bs_roots];
          rewrite ?get_set_same, ?get_set_other; auto; try congruence.
        -- eapply trep_other; eassumption.
        -- assert (Hol' : map snd (ohlvs o') = olvs o').
           { destruct o'; cbn; [apply hlvs_snd|reflexivity]. }
           rewrite <- Hol', Ho', map_map. unfold set_qty. rewrite <- (Permutation_map _ Hp), <- Hol, map_map.
           assert (Hext : forall x, In x (ohlvs o) ->
              snd (if Nat.eqb (fst x) h then (fst x, with_qty (snd x) q) else x) =
              (if l_key (snd x) =? k then
                 mkLeaf (l_owner_slot (snd x)) (l_order_type (snd x)) (l_tif (snd x)) (l_key (snd x))
                   (l_owner (snd x)) q (l_timestamp (snd x)) (l_peg_limit (snd x)) (l_client_id (snd x))
               else snd x)).
           { intros [h' l'] Hx. cbn [fst snd].
             assert (Hiff : h' = h <-> l_key l' = k).
             { destruct o as [t|]; [|destruct Hx]. cbn [ohlvs olvs] in *. destruct Ht as [Ha Htt].
               destruct Htt as (_ & _ & Hr & Hw). split.
               - intros ->. pose proof (rep_hlvs _ _ _ _ Hr Hx). pose proof (rep_hlvs _ _ _ _ Hr Hin).
                 congruence.
               - intros Hk'. apply (in_map snd) in Hx as Hx2. rewrite hlvs_snd in Hx2. cbn in Hx2.
                 assert (l' = l).
                 { apply in_split in Hinl as (A & B & HA). rewrite HA in Hs, Hx2.
                   eapply sorted_mid_unique; [exact Hs|exact Hx2|congruence]. }
                 subst l'. destruct (Nat.eq_dec h' h) as [|Hne]; [assumption|exfalso].
                 assert (HN : NoDup (map snd (hlvs t))).
                 { rewrite hlvs_snd. clear - Hs. induction Hs as [|y L0 Hs0 IH Hf0]; constructor; auto.
                   intros Hi. rewrite Forall_forall in Hf0. specialize (Hf0 y Hi). unfold klt in Hf0. lia. }
                 clear - HN Hx Hin Hne. induction (hlvs t) as [|y L0 IH]; [inversion Hx|].
                 cbn [map] in HN. inversion HN as [|? ? Hn1 Hn2]; subst.
                 destruct Hx as [->|Hx], Hin as [Hy|Hin].
                 + congruence.
                 + apply Hn1. apply (in_map snd) in Hin. exact Hin.
                 + subst y. apply Hn1. apply (in_map snd) in Hx. exact Hx.
                 + auto. }
             destruct (Nat.eqb_spec h' h) as [He|He], (Z.eqb_spec (l_key l') k) as [Hk'|Hk']; try tauto; reflexivity. }
           rewrite (map_ext_in _ _ _ Hext). reflexivity.
    + eexists _, _, b. split; [reflexivity|]. split; [|exact Hb].
      apply S_setqty_absent. intros l Hl Hk.
      eapply Permutation_in in Hl; [|apply Permutation_sym; exact Hp].
      rewrite <- Hol in Hl. apply in_map_iff in Hl as (x & Hx1 & Hx2). apply HL in Hx2.
      eapply find_none in Hf; [|exact Hx2]. rewrite Hx1 in Hf. apply Z.eqb_neq in Hf. contradiction.
Qed.

Lemma bsrep_init cap : bsrep cap (bs_init cap) ([], []).
Proof.
  split; [apply repeat_length|]. exists None, None, [].
  assert (Ha : ainv (mkArena 0 0 0 (repeat NUninit cap)) [] []).
  { constructor; cbn [bump free_len free_head nodes length flist app seq]; auto; lia. }
  split; [constructor; [exact Ha|reflexivity]|].
  split; [constructor; [exact Ha|reflexivity]|]. split; constructor.
Qed.

Lemma bs_run_ok bids cap os : forall s b, bsrep cap s b -> Forall op_ok os ->
  exists s' xs b', bs_run bids s os = Some (s', xs) /\ spec_run bids cap b os xs b' /\ bsrep cap s' b'.
Proof.
  induction os as [|o os IH]; intros s b Hb Hop.
  - exists s, [], b. repeat split; auto; constructor || apply Hb.
  - inversion Hop as [|? ? Ho Hos]; subst.
    destruct (bs_step_ok bids cap s b o Hb Ho) as (s1 & x & b1 & H1 & H2 & H3).
    destruct (IH s1 b1 H3 Hos) as (s2 & xs & b2 & H4 & H5 & H6).
    exists s2, (x :: xs), b2. cbn [bs_run]. rewrite H1, H4.
    split; [reflexivity|]. split; [econstructor; eassumption|assumption].
Qed.

Lemma ssorted_rev {A} (R : A -> A -> Prop) l : StronglySorted R l ->
  StronglySorted (fun x y => R y x) (rev l).
Proof.
  induction 1 as [|x l Hs IH Hf]; cbn [rev]; [constructor|].
  apply ssorted_app; [assumption|constructor; constructor|].
  intros a y Ha [<-|[]]. rewrite <- in_rev in Ha. rewrite Forall_forall in Hf. auto.
Qed.

Lemma bs_orders_ok bids cap s b c : bsrep cap s b ->
  exists L, bs_orders bids s c = Some L /\ Permutation L (get c b) /\
    StronglySorted (fun x y => worse bids y x) L.
Proof.
  intros Hb. destruct (bsrep_comp cap s b c Hb) as (_ & o & oo & fl & Ht & _ & Hp & _).
  unfold bs_orders. rewrite (iter_all_ok bids _ _ _ _ _ Ht). eexists. split; [reflexivity|].
  assert (Hol : map snd (ohlvs o) = olvs o).
  { destruct o; cbn; [apply hlvs_snd|reflexivity]. }
  pose proof (olvs_sorted _ _ _ _ _ Ht) as Hs.
  destruct bids; rewrite ?map_rev, Hol; split.
  - rewrite <- Hp. symmetry. apply Permutation_rev.
  - unfold worse. apply ssorted_rev in Hs. exact Hs.
  - exact Hp.
  - unfold worse. exact Hs.
Qed.

Lemma spec_run_app bids cap b os1 os2 xs b2 : spec_run bids cap b (os1 ++ os2) xs b2 ->
  exists xs1 xs2 b1, xs = xs1 ++ xs2 /\ spec_run bids cap b os1 xs1 b1 /\ spec_run bids cap b1 os2 xs2 b2.
Proof.
  revert b xs; induction os1 as [|o os1 IH]; intros b xs H; cbn [app] in H.
  - exists [], xs, b. repeat split; [constructor|assumption].
  - inversion H as [|? ? ? x xs' b1 ? Hs Hr]; subst.
    destruct (IH _ _ Hr) as (xs1 & xs2 & b3 & -> & H1 & H2).
    exists (x :: xs1), xs2, b3. repeat split; auto. econstructor; eassumption.
Qed.

(** not full => one more order fits *)
Lemma not_full_room cap s b c : bsrep cap s b -> is_full (bs_arena s) = false ->
  room cap b c.
Proof.
  intros Hb Hf. destruct (bsrep_comp cap s b c Hb) as (Hcap & o & oo & fl & Ht & Hto & Hp & Hpo).
  apply (insert_case_room (bs_arena s) c b o oo cap Hcap (olvs_slots _ _ _ _ _ Ht)
                  (olvs_slots _ _ _ _ _ Hto) Hp Hpo).
  destruct Ht as [Ha _]. pose proof (ainv_used_len _ _ _ Ha) as Hu.
  pose proof (ai_len _ _ _ Ha). pose proof (ai_bump _ _ _ Ha).
  unfold is_full in Hf. apply andb_false_iff in Hf as [Hf|Hf].
  - apply Nat.leb_gt in Hf. destruct o; lia.
  - apply Nat.leb_gt in Hf. destruct o; lia.
Qed.

(** partition of the allocated slots *)
Lemma slots_partition cap s b : bsrep cap s b ->
  (free_len (bs_arena s) + slots (length (fst b)) + slots (length (snd b)) = bump (bs_arena s))%nat /\
  (bump (bs_arena s) <= cap)%nat /\
  leaf_count (fst (bs_roots s)) = length (fst b) /\
  leaf_count (snd (bs_roots s)) = length (snd b).
Proof.
  intros (Hcap & o0 & o1 & fl & H0 & H1 & P0 & P1).
  pose proof (olvs_slots _ _ _ _ _ H0) as S0. pose proof (olvs_slots _ _ _ _ _ H1) as S1.
  apply Permutation_length in P0, P1.
  destruct H0 as [Ha Ht0]. destruct H1 as [_ Ht1].
  pose proof (ainv_used_len _ _ _ Ha) as Hu. rewrite app_length in Hu.
  pose proof (ai_len _ _ _ Ha). pose proof (ai_bump _ _ _ Ha).
  rewrite <- P0, <- P1. repeat split; try lia.
  - destruct o0; cbn [olvs length] in *; tauto || lia.
  - destruct o1; cbn [olvs length] in *; tauto || lia.
Qed.
