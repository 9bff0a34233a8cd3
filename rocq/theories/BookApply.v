(** Effect of the book updates on the multiset of resting orders of a side. *)
From Coq Require Import List ZArith Lia Bool Arith Permutation Sorted.
From Verif Require Import OrderTree OrderTreeSpec KeyBits OrderTreeRep BookArena BookArenaProofs
  BookArenaFacts Keys Fixed BookSide BookSideSpec BookSideProofs BookSideView BookSideWorst EventQueue PerpTypes Book
  BookLoop.
Import ListNotations.
Open Scope Z_scope.

(** all resting orders of a side *)
Definition all (b : lists) : list entry := map (pair false) (fst b) ++ map (pair true) (snd b).

Lemma in_all b c l : In (c, l) (all b) <-> In l (get c b).
Proof.
  unfold all. rewrite in_app_iff, !in_map_iff. destruct c; cbn [get]; split.
  - intros [(x & E & _)|(x & E & H)]; congruence.
  - intros H. right. exists l. auto.
  - intros [(x & E & H)|(x & E & _)]; congruence.
  - intros H. left. exists l. auto.
Qed.
Lemma all_mid b c A l B l' : get c b = A ++ l :: B ->
  Permutation (all (set c (A ++ l' :: B) b)) ((c, l') :: all (set c (A ++ B) b)).
Proof.
  intros E. destruct b as [F P], c; unfold all; cbn [get set fst snd] in *; subst.
  - rewrite !map_app. cbn [map]. rewrite !app_assoc. symmetry. apply Permutation_middle.
  - rewrite !map_app. cbn [map]. rewrite <- !app_assoc. cbn [app]. symmetry.
    apply (Permutation_middle (map (pair false) A)).
Qed.
Lemma minus_all b c l b' : minus b c l b' -> Permutation (all b) ((c, l) :: all b').
Proof.
  intros (A & B & E & ->). rewrite (lists_eta b c) at 1. rewrite E. apply all_mid with (l := l). exact E.
Qed.

Lemma view_insert_gen sd cap s b c l s' x : view sd cap s b -> leaf_ok l -> absent (l_key l) (get c b) ->
  bs_step sd s (OInsert c l) = Some (s', x) -> x <> OutFull ->
  exists b', view sd cap s' b' /\ minus b' c l b.
Proof.
  intros Hv Hok Ha Hs Hx. pose proof Hv as [Hr H].
  destruct (insert_fact sd cap s c l Hr Hok) as (s1 & x1 & Hs1 & Hx1).
  rewrite Hs in Hs1. injection Hs1 as <- <-.
  pose proof (reachable_step _ _ _ (OInsert c l) _ _ Hr Hok Hs) as Hr'.
  destruct x as [|old| | |]; try contradiction; try tauto.
  - destruct (view_exists sd cap s' Hr') as [b' Hv']. exists b'. split; [exact Hv'|].
    destruct (removed_minus _ _ _ _ _ _ _ Hv' Hr Hx1) as (b0 & Hv0 & Hm).
    rewrite (view_fun _ _ _ _ _ Hv Hv0). exact Hm.
  - destruct Hx1 as (Hk & (A & B & HA & _) & _). rewrite (H c) in HA. injection HA as HA. exfalso.
    apply (Ha old); [|exact Hk]. rewrite HA. apply in_or_app; right; left; reflexivity.
Qed.

Definition ckey (y : comp * leaf * Z) : comp * Z * Z := (fst (fst y), l_key (snd (fst y)), snd y).
Definition cnew (y : comp * leaf * Z) : entry := (fst (fst y), with_qty (snd (fst y)) (snd y)).

Lemma apply_changes_ok sd cap CL : forall s b R, view sd cap s b ->
  Permutation (all b) (map fst CL ++ R) ->
  exists s' b', apply_changes sd s (map ckey CL) = Some s' /\ view sd cap s' b' /\
    Permutation (all b') (map cnew CL ++ R).
Proof.
  induction CL as [|[[c l] q] CL IH]; intros s b R Hv HP; cbn [map app apply_changes fst] in *.
  - exists s, b. auto.
  - assert (Hin : In l (get c b)). { apply in_all. eapply Permutation_in; [symmetry; exact HP|]. left; reflexivity. }
    apply in_split in Hin as (A & B & E).
    destruct (view_set_qty sd cap s b c A l B q Hv E) as (s1 & E1 & V1).
    unfold ckey at 1. cbn [fst snd]. rewrite E1.
    assert (HP1 : Permutation (all (set c (A ++ with_qty l q :: B) b)) (map fst CL ++ (c, with_qty l q) :: R)).
    { rewrite (all_mid b c A l B) by exact E. rewrite <- Permutation_middle. apply perm_skip.
      eapply Permutation_cons_inv. rewrite <- HP. symmetry.
      rewrite (lists_eta b c) at 1. rewrite E. apply all_mid with (l := l). exact E. }
    destruct (IH s1 _ _ V1 HP1) as (s' & b' & E2 & V2 & P2).
    exists s', b'. split; [exact E2|]. split; [exact V2|]. rewrite P2. unfold cnew at 2. cbn [fst snd].
    symmetry. apply Permutation_middle.
Qed.

Lemma apply_deletes_ok sd cap DL : forall s b R, view sd cap s b ->
  Permutation (all b) (DL ++ R) ->
  exists s' b', apply_deletes sd s (map (fun y => (fst y, l_key (snd y))) DL) = Some s' /\ view sd cap s' b' /\
    Permutation (all b') R.
Proof.
  induction DL as [|[c l] DL IH]; intros s b R Hv HP; cbn [map app apply_deletes fst snd] in *.
  - exists s, b. auto.
  - assert (Hin : In l (get c b)). { apply in_all. eapply Permutation_in; [symmetry; exact HP|]. left; reflexivity. }
    destruct (view_remove_in sd cap s b c l Hv Hin) as (s1 & b1 & E1 & V1 & M1). rewrite E1.
    apply (IH s1 b1 R V1). eapply Permutation_cons_inv. rewrite <- HP. symmetry. apply minus_all, M1.
Qed.

(** *** what is left of an order after its action *)
Definition after_act (ia : aitem) : list entry :=
  let '(i, a) := ia in
  match a with
  | ASkip => [(it_pegged i, it_leaf i)]
  | ADrop | ACancel => []
  | AFill q => if qty i - q =? 0 then [] else [(it_pegged i, with_qty (it_leaf i) (qty i - q))]
  end.
Definition entry_of (i : item) : entry := (it_pegged i, it_leaf i).

Lemma acts_split (acts : list aitem) :
  Permutation (map entry_of (map fst acts))
    (map fst (flat_map act_change acts) ++ flat_map act_delete acts ++
     flat_map (fun ia => match snd ia with ASkip => [entry_of (fst ia)] | _ => [] end) acts).
Proof.
  induction acts as [|[i a] acts IH]; [reflexivity|]. cbn [map flat_map fst snd act_change act_delete].
  destruct a as [| | |q].
  - cbn [app map]. rewrite IH. rewrite !app_assoc. apply Permutation_middle.
  - cbn [app map]. rewrite IH. apply Permutation_middle.
  - cbn [app map]. rewrite IH. apply Permutation_middle.
  - destruct (qty i - q =? 0); cbn [app map fst]; rewrite IH.
    + apply Permutation_middle.
    + reflexivity.
Qed.
Lemma after_split (acts : list aitem) :
  Permutation (flat_map after_act acts)
    (map cnew (flat_map act_change acts) ++
     flat_map (fun ia => match snd ia with ASkip => [entry_of (fst ia)] | _ => [] end) acts).
Proof.
  induction acts as [|[i a] acts IH]; [reflexivity|]. cbn [map flat_map fst snd act_change after_act].
  destruct a as [| | |q].
  - cbn [app map]. rewrite IH. apply Permutation_middle.
  - exact IH.
  - exact IH.
  - destruct (qty i - q =? 0); cbn [app map fst]; rewrite IH; reflexivity.
Qed.

Lemma apply_acts sd cap s b acts R : view sd cap s b ->
  Permutation (all b) (map entry_of (map fst acts) ++ R) ->
  exists s1 s2 b',
    apply_changes sd s (map (fun y => (fst (fst y), l_key (snd (fst y)), snd y)) (flat_map act_change acts)) = Some s1 /\
    apply_deletes sd s1 (map (fun y => (fst y, l_key (snd y))) (flat_map act_delete acts)) = Some s2 /\
    view sd cap s2 b' /\ Permutation (all b') (flat_map after_act acts ++ R).
Proof.
  intros Hv HP. rewrite acts_split in HP. rewrite <- !app_assoc in HP.
  destruct (apply_changes_ok sd cap _ s b _ Hv HP) as (s1 & b1 & E1 & V1 & P1).
  assert (P1' : Permutation (all b1)
    (flat_map act_delete acts ++ map cnew (flat_map act_change acts) ++
     flat_map (fun ia => match snd ia with ASkip => [entry_of (fst ia)] | _ => [] end) acts ++ R)).
  { rewrite P1. rewrite !app_assoc. apply Permutation_app_tail. apply Permutation_app_tail. apply Permutation_app_comm. }
  destruct (apply_deletes_ok sd cap _ s1 b1 _ V1 P1') as (s2 & b' & E2 & V2 & P2).
  exists s1, s2, b'. split; [exact E1|]. split; [exact E2|]. split; [exact V2|].
  rewrite P2, after_split, <- !app_assoc. reflexivity.
Qed.

(** *** posting *)
Fixpoint out_events (sd : side) (now seq : Z) (L : list entry) : list event :=
  match L with
  | [] => []
  | e :: L' => out_of_leaf sd now seq (snd e) :: out_events sd now (seq + 1) L'
  end.
Lemma out_events_length sd now L : forall seq, length (out_events sd now seq L) = length L.
Proof. induction L; intros; cbn; auto. Qed.

Lemma post_order_ok o mkt c s q a pk now ol price id qt s' q' a' cap capq b Q n :
  post_order o mkt c s q a pk now ol price id qt = Some (s', q', a') ->
  view (o_side o) cap s b -> qview capq q Q n -> in_i64 ol -> Forall fixed_ok (fst b) ->
  (forall e, In e (all b) -> l_key (snd e) <> id) ->
  key_ok id -> 0 <= o_tif o < 2 ^ 16 -> 0 <= now -> now + 2 ^ 16 <= u64_max ->
  exists sl removed R b',
    let l := mkLeaf sl 0 (o_tif o) id pk qt now (peg_limit o) (o_client o) in
    next_order_slot a = Some sl /\ add_perp_order a mkt (o_side o) c l = Some a' /\
    view (o_side o) cap s' b' /\
    Permutation (all b) (removed ++ R) /\ Permutation (all b') ((c, l) :: R) /\
    qview capq q' (Q ++ out_events (o_side o) now n removed) (n + Z.of_nat (length removed)) /\
    (length removed <= 2)%nat /\
    (forall e, In e removed -> expiry (snd e) < now \/ better_price (o_side o) price (cprice ol e)).
Proof.
  intros HP Hv HQ Hol Hfix Hid Hkey Htif Hnow Hnow2. unfold post_order in HP.
  destruct (view_expired (o_side o) cap s b c now Hv) as (s1 & x1 & b1 & E1 & V1 & H1). rewrite E1 in HP.
  assert (Hex : exists rem1 q1, Permutation (all b) (rem1 ++ all b1) /\ (length rem1 <= 1)%nat /\
     (match x1 with None => Some q | Some l => push q (out_of_leaf (o_side o) now (q_seq q) l) end) = Some q1 /\
     qview capq q1 (Q ++ out_events (o_side o) now n rem1) (n + Z.of_nat (length rem1)) /\
     (forall e, In e rem1 -> expiry (snd e) < now)).
  { destruct x1 as [l|].
    - destruct (push q _) as [q1|] eqn:Ep; [|discriminate HP]. destruct H1 as (Hlt & c' & Hm & _).
      exists [(c', l)], q1. cbn [app length out_events snd]. split; [apply minus_all, Hm|]. split; [lia|].
      split; [reflexivity|]. split.
      { pose proof (push_view _ _ _ _ _ _ HQ Ep) as HQ1. rewrite (qview_seq _ _ _ _ HQ) in HQ1. exact HQ1. }
      intros e [<-|[]]. exact Hlt.
    - destruct H1 as [_ ->]. exists [], q. cbn [app length out_events]. split; [reflexivity|]. split; [lia|].
      split; [reflexivity|]. split; [rewrite app_nil_r, Z.add_0_r; exact HQ|]. intros e []. }
  destruct Hex as (rem1 & q1 & P1 & L1 & Eq1 & HQ1 & Hrem1). rewrite Eq1 in HP. clear Eq1.
  assert (Hfix1 : Forall fixed_ok (fst b1)).
  { rewrite Forall_forall in *. intros l Hl. apply Hfix. change (In l (get false b)). apply in_all.
    eapply Permutation_in; [symmetry; exact P1|]. apply in_or_app. right. apply in_all. exact Hl. }
  assert (Hw : exists rem2 s2 q2 b2, Permutation (all b1) (rem2 ++ all b2) /\ (length rem2 <= 1)%nat /\
     (if is_full (bs_arena s1) then
                   match bs_remove_worst (o_side o) s1 now ol with
                   | Some (s', Some (l, wp)) =>
                       if is_price_better (o_side o) price wp then
                         match push q1 (out_of_leaf (o_side o) now (q_seq q1) l) with
                         | Some q' => Some (s', q')
                         | None => None
                         end
                       else None
                   | _ => None
                   end
                 else Some (s1, q1)) = Some (s2, q2) /\
     view (o_side o) cap s2 b2 /\
     qview capq q2 (Q ++ out_events (o_side o) now n (rem1 ++ rem2)) (n + Z.of_nat (length (rem1 ++ rem2))) /\
     (forall e, In e rem2 -> better_price (o_side o) price (cprice ol e))).
  { destruct (is_full (bs_arena s1)).
    - destruct (view_remove_worst (o_side o) cap s1 b1 now ol V1 Hol Hfix1) as (s2 & x2 & b2 & E2 & V2 & H2).
      rewrite E2 in HP |- *. destruct x2 as [[l wp]|]; [|discriminate HP].
      destruct (is_price_better (o_side o) price wp) eqn:Eb; [|discriminate HP].
      destruct (push q1 _) as [q2|] eqn:Ep; [|discriminate HP].
      destruct H2 as (c' & Hm & Hpr & _). exists [(c', l)], s2, q2, b2.
      cbn [app length]. split; [apply minus_all, Hm|]. split; [lia|]. split; [reflexivity|]. split; [exact V2|].
      split.
      { pose proof (push_view _ _ _ _ _ _ HQ1 Ep) as HQ2. rewrite (qview_seq _ _ _ _ HQ1) in HQ2.
        rewrite app_length. cbn [length].
        replace (n + Z.of_nat (length rem1 + 1)) with (n + Z.of_nat (length rem1) + 1) by lia.
        assert (Hoe : forall rem m, out_events (o_side o) now m (rem ++ [(c', l)]) =
           out_events (o_side o) now m rem ++ [out_of_leaf (o_side o) now (m + Z.of_nat (length rem)) l]).
        { induction rem as [|r rem IHr]; intros m; cbn [app out_events length snd].
          - rewrite Z.add_0_r. reflexivity.
          - f_equal. rewrite IHr. do 3 f_equal. lia. }
        rewrite Hoe, app_assoc. exact HQ2. }
      intros e [<-|[]]. rewrite <- Hpr. apply is_price_better_iff. exact Eb.
    - exists [], s1, q1, b1. cbn [app length]. rewrite app_nil_r. split; [reflexivity|]. split; [lia|].
      split; [reflexivity|]. split; [exact V1|]. split; [exact HQ1|]. intros e []. }
  destruct Hw as (rem2 & s2 & q2 & b2 & P2 & L2 & Eq2 & V2 & HQ2 & Hrem2). rewrite Eq2 in HP. clear Eq2.
  destruct (next_order_slot a) as [sl|] eqn:Esl; [|discriminate HP].
  set (l := mkLeaf sl 0 (o_tif o) id pk qt now (peg_limit o) (o_client o)) in *.
  destruct (bs_step (o_side o) s2 (OInsert c l)) as [[s3 x3]|] eqn:Ei; [|discriminate HP].
  assert (Hx3 : x3 <> OutFull) by (intros ->; discriminate HP).
  destruct (view_insert_gen (o_side o) cap s2 b2 c l s3 x3 V2) as (b3 & V3 & M3); auto.
  { unfold leaf_ok, l. cbn [l_key l_tif l_timestamp]. split; [exact Hkey|]. lia. }
  { intros y Hy. cbn [l l_key]. change y with (snd (c, y)). apply Hid. eapply Permutation_in; [symmetry; exact P1|].
    apply in_or_app. right. eapply Permutation_in; [symmetry; exact P2|]. apply in_or_app. right.
    apply in_all. exact Hy. }
  assert (Hfin : match add_perp_order a mkt (o_side o) c l with
                 | None => None | Some a' => Some (s3, q2, a') end = Some (s', q', a')).
  { destruct x3; try exact HP. congruence. }
  destruct (add_perp_order a mkt (o_side o) c l) as [a3|] eqn:Ea; [|discriminate Hfin].
  injection Hfin as <- <- <-.
  exists sl, (rem1 ++ rem2), (all b2), b3. split; [reflexivity|]. split; [exact Ea|]. split; [exact V3|].
  split; [rewrite P1, P2, app_assoc; reflexivity|]. split; [apply minus_all, M3|]. split; [exact HQ2|].
  split; [rewrite app_length; lia|].
  intros e He. apply in_app_or in He as [He|He]; auto.
Qed.
