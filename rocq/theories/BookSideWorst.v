From Coq Require Import List ZArith Lia Bool Arith Permutation Sorted.
From Verif Require Import OrderTree OrderTreeSpec KeyBits OrderTreeRep OrderTreeOps2 BookArena BookArenaProofs
  BookArenaFacts Keys BookSide BookSideSpec BookSideProofs BookSideView.
Import ListNotations.
Open Scope Z_scope.

(** price of an entry, clamped to what an i64 price can be *)
Definition cprice (oracle : Z) (e : entry) : Z := clamp_price (eff_price oracle e).

Lemma worse_cprice sd oracle c x y : worse sd y x ->
  ~ better_price sd (cprice oracle (c, y)) (cprice oracle (c, x)).
Proof.
  intros H. apply (worse_before sd oracle c) in H. unfold before, better_price, cprice, clamp_price, i64_max in *.
  destruct sd; lia.
Qed.

Lemma hd_rev_split {A} (L : list A) x : hd_error (rev L) = Some x -> exists L0, L = L0 ++ [x].
Proof.
  intros H. destruct (rev L) as [|y R] eqn:E; [discriminate|]. injection H as ->.
  exists (rev R). rewrite <- (rev_involutive L), E. reflexivity.
Qed.
Lemma hd_rev_none {A} (L : list A) : hd_error (rev L) = None -> L = [].
Proof.
  intros H. destruct (rev L) as [|y R] eqn:E; [|discriminate]. rewrite <- (rev_involutive L), E. reflexivity.
Qed.
Lemma lsorted_last sd L x : lsorted sd (L ++ [x]) -> forall y, In y L -> worse sd x y.
Proof.
  unfold lsorted. induction L as [|z L IH]; cbn [app]; intros H y Hy; [destruct Hy|].
  inversion H as [|? ? Hs Hf]; subst. destruct Hy as [<-|Hy]; [|auto].
  rewrite Forall_forall in Hf. apply Hf, in_or_app. right; left; reflexivity.
Qed.

(** the entries better than [e] *)
Definition worst_of (sd : side) (oracle : Z) (b' : lists) (c : comp) (l : leaf) : Prop :=
  (forall c' l', In l' (get c' b') -> ~ better_price sd (cprice oracle (c, l)) (cprice oracle (c', l'))) /\
  ((forall l', In l' (snd b') \/ (c = true /\ l' = l) -> representable oracle l' = true) ->
   forall c' l', In l' (get c' b') -> before sd oracle (c', l') (c, l)).

Lemma repr_clamp oracle l : representable oracle l = true -> cprice oracle (true, l) = eff_price oracle (true, l).
Proof.
  intros H. unfold representable in H. apply andb_true_iff in H as [H1 H2].
  apply Z.leb_le in H1. apply Z.ltb_lt in H2. unfold cprice, clamp_price. lia.
Qed.
Lemma fixed_clamp oracle l : fixed_ok l -> cprice oracle (false, l) = eff_price oracle (false, l).
Proof. unfold fixed_ok, cprice, clamp_price, eff_price. cbn [fst snd]. lia. Qed.

Lemma cprice_range oracle e : 1 <= cprice oracle e <= i64_max.
Proof. unfold cprice, clamp_price, i64_max. lia. Qed.

Lemma key_cmp_price (sd : side) oracle f o : fixed_ok f ->
  (if sd then cprice oracle (true, o) * 2 ^ 64 + l_key o mod 2 ^ 64 <? l_key f
         else l_key f <? cprice oracle (true, o) * 2 ^ 64 + l_key o mod 2 ^ 64) = true ->
  ~ better_price sd (cprice oracle (true, o)) (cprice oracle (false, f)).
Proof.
  intros Hf. rewrite (fixed_clamp oracle f Hf). unfold eff_price. cbn [fst snd]. unfold better_price.
  pose proof (key_split f) as Ex. pose proof (low_range f) as Lx. pose proof (low_range o) as Ly.
  set (a := l_key f / 2 ^ 64) in *. set (m := l_key f mod 2 ^ 64) in *.
  set (n := l_key o mod 2 ^ 64) in *. set (p := cprice oracle (true, o)) in *.
  clearbody a m n p. unfold u64_max in *. rewrite Ex. destruct sd; rewrite Z.ltb_lt; lia.
Qed.
Lemma key_cmp_price2 (sd : side) oracle f o : fixed_ok f ->
  (if sd then cprice oracle (true, o) * 2 ^ 64 + l_key o mod 2 ^ 64 <? l_key f
         else l_key f <? cprice oracle (true, o) * 2 ^ 64 + l_key o mod 2 ^ 64) = false ->
  ~ better_price sd (cprice oracle (false, f)) (cprice oracle (true, o)).
Proof.
  intros Hf. rewrite (fixed_clamp oracle f Hf). unfold eff_price. cbn [fst snd]. unfold better_price.
  pose proof (key_split f) as Ex. pose proof (low_range f) as Lx. pose proof (low_range o) as Ly.
  set (a := l_key f / 2 ^ 64) in *. set (m := l_key f mod 2 ^ 64) in *.
  set (n := l_key o mod 2 ^ 64) in *. set (p := cprice oracle (true, o)) in *.
  clearbody a m n p. unfold u64_max in *. rewrite Ex. destruct sd; rewrite Z.ltb_ge; lia.
Qed.
Lemma not_better_trans sd p q r : ~ better_price sd p q -> ~ better_price sd q r -> ~ better_price sd p r.
Proof. unfold better_price. destruct sd; lia. Qed.

Lemma rank_worst_pick sd now oracle F P : in_i64 oracle ->
  lsorted sd F -> lsorted sd P -> Forall fixed_ok F -> Forall okey P ->
  exists r, rank_orders sd (hd_error (rev F)) (hd_error (rev P)) true now oracle = Some r /\
  match r with
  | None => F = [] /\ P = []
  | Some i => exists L0, get (it_pegged i) (F, P) = L0 ++ [it_leaf i] /\
      it_price i = cprice oracle (it_pegged i, it_leaf i) /\
      worst_of sd oracle (set (it_pegged i) L0 (F, P)) (it_pegged i) (it_leaf i)
  end.
Proof.
  intros Ho HF HP HfF HkP.
  destruct (hd_error (rev F)) as [f|] eqn:EF; destruct (hd_error (rev P)) as [o|] eqn:EP; cbn [rank_orders].
  - apply hd_rev_split in EF as [F0 ->]. apply hd_rev_split in EP as [P0 ->].
    assert (Hfo : fixed_ok f) by (apply Forall_app in HfF as [_ H]; inversion H; assumption).
    assert (Hko : okey o) by (apply Forall_app in HkP as [_ H]; inversion H; assumption).
    pose proof (pegged_price_val oracle sd o Ho Hko) as Hpv.
    destruct (oracle_pegged_price oracle o sd) as [st p]. cbn [snd] in Hpv.
    fold (cprice oracle (true, o)) in Hpv. subst p.
    rewrite (kffp (l_key o) _ (cprice_range oracle (true, o))).
    pose proof (lsorted_last sd F0 f HF) as Hlf. pose proof (lsorted_last sd P0 o HP) as Hlo.
    destruct (if sd then cprice oracle (true, o) * 2 ^ 64 + l_key o mod 2 ^ 64 <? l_key f
         else l_key f <? cprice oracle (true, o) * 2 ^ 64 + l_key o mod 2 ^ 64) eqn:E; cbn [xorb].
    + eexists. split; [reflexivity|]. cbn [pegged_to_result it_pegged it_leaf it_price get fst snd set].
      exists P0. split; [reflexivity|]. split; [reflexivity|]. split.
      * intros [|] l' Hl'; cbn [get fst snd] in Hl'.
        -- apply worse_cprice, Hlo, Hl'.
        -- apply in_app_or in Hl' as [Hl'|[<-|[]]].
           ++ eapply not_better_trans; [exact (key_cmp_price sd oracle f o Hfo E)|].
              apply worse_cprice, Hlf, Hl'.
           ++ exact (key_cmp_price sd oracle f o Hfo E).
      * intros Hrep. assert (Hro : representable oracle o = true) by (apply Hrep; auto).
        rewrite (repr_clamp oracle o Hro) in E. apply fixed_vs_pegged in E.
        intros [|] l' Hl'; cbn [get fst snd] in Hl'.
        -- apply worse_before, Hlo, Hl'.
        -- apply in_app_or in Hl' as [Hl'|[<-|[]]]; [|exact E].
           eapply before_trans; [|exact E]. apply worse_before, Hlf, Hl'.
    + rewrite (fixed_item sd now oracle f Hfo).
      eexists. split; [reflexivity|]. cbn [item_of it_pegged it_leaf it_price get fst snd set].
      exists F0. split; [reflexivity|]. split; [symmetry; apply fixed_clamp; exact Hfo|]. split.
      * intros [|] l' Hl'; cbn [get fst snd] in Hl'.
        -- apply in_app_or in Hl' as [Hl'|[<-|[]]].
           ++ eapply not_better_trans; [exact (key_cmp_price2 sd oracle f o Hfo E)|].
              apply worse_cprice, Hlo, Hl'.
           ++ exact (key_cmp_price2 sd oracle f o Hfo E).
        -- apply worse_cprice, Hlf, Hl'.
      * intros Hrep. assert (Hro : representable oracle o = true).
        { apply Hrep. left. cbn [snd set]. apply in_or_app; right; left; reflexivity. }
        rewrite (repr_clamp oracle o Hro) in E. apply pegged_vs_fixed in E.
        intros [|] l' Hl'; cbn [get fst snd] in Hl'.
        -- apply in_app_or in Hl' as [Hl'|[<-|[]]]; [|exact E].
           eapply before_trans; [|exact E]. apply worse_before, Hlo, Hl'.
        -- apply worse_before, Hlf, Hl'.
  - apply hd_rev_split in EF as [F0 ->]. apply hd_rev_none in EP as ->.
    assert (Hfo : fixed_ok f) by (apply Forall_app in HfF as [_ H]; inversion H; assumption).
    pose proof (lsorted_last sd F0 f HF) as Hlf.
    rewrite (fixed_item sd now oracle f Hfo).
    eexists. split; [reflexivity|]. cbn [item_of it_pegged it_leaf it_price get fst snd set].
    exists F0. split; [reflexivity|]. split; [symmetry; apply fixed_clamp; exact Hfo|].
    split; intros; destruct c'; cbn [get fst snd] in *; try contradiction.
    + apply worse_cprice, Hlf; assumption.
    + apply worse_before, Hlf; assumption.
  - apply hd_rev_split in EP as [P0 ->]. apply hd_rev_none in EF as ->.
    assert (Hko : okey o) by (apply Forall_app in HkP as [_ H]; inversion H; assumption).
    pose proof (pegged_price_val oracle sd o Ho Hko) as Hpv.
    destruct (oracle_pegged_price oracle o sd) as [st p]. cbn [snd] in Hpv.
    pose proof (lsorted_last sd P0 o HP) as Hlo.
    eexists. split; [reflexivity|]. cbn [pegged_to_result it_pegged it_leaf it_price get fst snd set].
    exists P0. split; [reflexivity|]. split; [exact Hpv|].
    split; intros; destruct c'; cbn [get fst snd] in *; try contradiction.
    + apply worse_cprice, Hlo; assumption.
    + apply worse_before, Hlo; assumption.
  - apply hd_rev_none in EF as ->. apply hd_rev_none in EP as ->.
    eexists. split; [reflexivity|]. split; reflexivity.
Qed.

Lemma view_remove_worst sd cap s b now oracle : view sd cap s b -> in_i64 oracle -> Forall fixed_ok (fst b) ->
  exists s' x b', bs_remove_worst sd s now oracle = Some (s', x) /\ view sd cap s' b' /\
  match x with
  | None => b = ([], []) /\ b' = b
  | Some (l, p) => exists c, minus b c l b' /\ p = cprice oracle (c, l) /\ worst_of sd oracle b' c l
  end.
Proof.
  intros Hv Ho Hfix. unfold bs_remove_worst.
  destruct (view_find_worst sd cap s b false Hv) as (wf & E1 & H1).
  destruct (view_find_worst sd cap s b true Hv) as (wp & E2 & H2). cbn [get] in *.
  rewrite E1, E2, H1, H2.
  destruct (rank_worst_pick sd now oracle (fst b) (snd b) Ho (view_sorted sd cap s b false Hv)
     (view_sorted sd cap s b true Hv) Hfix (view_okey sd cap s b true Hv)) as (r & Er & Hr).
  rewrite Er. destruct r as [i|].
  - destruct Hr as (L0 & HL & Hp & Hw).
    assert (HL' : get (it_pegged i) b = L0 ++ [it_leaf i]) by (destruct b; exact HL).
    destruct (view_remove_in sd cap s b (it_pegged i) (it_leaf i) Hv) as (s' & b' & Es & Hv' & Hm).
    { rewrite HL'. apply in_or_app; right; left; reflexivity. }
    rewrite Es. exists s', (Some (it_leaf i, it_price i)), b'. split; [reflexivity|]. split; [exact Hv'|].
    exists (it_pegged i). split; [exact Hm|]. split; [exact Hp|].
    destruct Hm as (A & B & EA & ->).
    assert (A = L0 /\ B = []) as [-> ->].
    { rewrite HL' in EA. pose proof (view_sorted sd cap s b (it_pegged i) Hv) as Hs. rewrite HL' in Hs.
      destruct B as [|y B] using rev_ind.
      - apply app_inj_tail in EA as [-> _]. auto.
      - exfalso. replace (A ++ it_leaf i :: B ++ [y]) with ((A ++ it_leaf i :: B) ++ [y]) in EA
          by (rewrite <- app_assoc; reflexivity).
        apply app_inj_tail in EA as [-> EA].
        pose proof (lsorted_last sd _ _ Hs (it_leaf i)) as Hc.
        assert (Hin : In (it_leaf i) (A ++ it_leaf i :: B)) by (apply in_or_app; right; left; reflexivity).
        specialize (Hc Hin). unfold worse in Hc. destruct sd; lia. }
    rewrite app_nil_r. destruct b; exact Hw.
  - destruct Hr as [HF HP]. exists s, None, b. split; [reflexivity|]. split; [exact Hv|].
    destruct b; cbn in *; subst; auto.
Qed.

Lemma ssorted_snoc {A} (R : A -> A -> Prop) L x : StronglySorted R L -> (forall y, In y L -> R y x) ->
  StronglySorted R (L ++ [x]).
Proof.
  intros H Hx. apply ssorted_app; [exact H|constructor; constructor|]. intros a y Ha [<-|[]]. auto.
Qed.

Lemma filter_all {A} (f : A -> bool) L : (forall x, In x L -> f x = true) -> filter f L = L.
Proof.
  induction L as [|x L IH]; intros H; [reflexivity|]. cbn. rewrite H by (left; reflexivity).
  rewrite IH; [reflexivity|]. intros y Hy. apply H. right; exact Hy.
Qed.

Lemma entries_minus oracle b c l b' : minus b c l b' ->
  (forall x, In x (snd b) -> representable oracle x = true) ->
  Permutation (entries oracle (fst b) (snd b)) ((c, l) :: entries oracle (fst b') (snd b')).
Proof.
  intros (A & B & E & ->) Hrep. unfold entries.
  assert (Hrep' : forall x, In x (snd (set c (A ++ B) b)) -> representable oracle x = true).
  { intros x Hx. apply Hrep. destruct b as [F P], c; cbn in *; subst; [|exact Hx].
    apply in_app_or in Hx as [Hx|Hx]; apply in_or_app; cbn; auto. }
  rewrite (filter_all _ (snd b)) by exact Hrep. rewrite (filter_all _ (snd (set c (A ++ B) b))) by exact Hrep'.
  destruct b as [F P], c; cbn [get set fst snd] in *; subst.
  - rewrite !map_app. cbn [map]. rewrite !app_assoc. symmetry. apply Permutation_middle.
  - rewrite !map_app. cbn [map]. rewrite <- !app_assoc. cbn [app]. symmetry.
    apply (Permutation_middle (map (pair false) A)).
Qed.

(** if every pegged order is representable, the evicted order is the last one of
    the combined iteration and the rest keeps its place *)
Lemma worst_is_last sd cap s b s' b' c l now oracle :
  view sd cap s b -> view sd cap s' b' -> in_i64 oracle -> Forall fixed_ok (fst b) ->
  minus b c l b' -> worst_of sd oracle b' c l ->
  (forall x, In x (snd b) -> representable oracle x = true) ->
  exists M, bs_items sd s now oracle = Some (map (item_of sd now oracle) (M ++ [(c, l)])) /\
            bs_items sd s' now oracle = Some (map (item_of sd now oracle) M).
Proof.
  intros Hv Hv' Ho Hfix Hm [_ Hw] Hrep.
  assert (Hin' : forall c' x, In x (get c' b') -> In x (get c' b)).
  { destruct Hm as (A & B & E & ->). intros c' x. destruct (Bool.bool_dec c' c) as [->|Hne].
    - rewrite get_set_same, E, !in_app_iff. cbn. tauto.
    - rewrite (neq_negb _ _ Hne), get_set_other. auto. }
  assert (Hl : In l (get c b)).
  { destruct Hm as (A & B & E & ->). rewrite E. apply in_or_app; right; left; reflexivity. }
  assert (Hfix' : Forall fixed_ok (fst b')).
  { rewrite Forall_forall in *. intros x Hx. apply Hfix. exact (Hin' false x Hx). }
  assert (Hrep' : forall x, In x (snd b') -> representable oracle x = true).
  { intros x Hx. apply Hrep. exact (Hin' true x Hx). }
  destruct (merge_ok sd now oracle (fst b) (snd b) Ho (view_sorted sd cap s b false Hv)
     (view_sorted sd cap s b true Hv) Hfix (view_okey sd cap s b true Hv)) as (M1 & E1 & P1 & S1).
  destruct (merge_ok sd now oracle (fst b') (snd b') Ho (view_sorted sd cap s' b' false Hv')
     (view_sorted sd cap s' b' true Hv') Hfix' (view_okey sd cap s' b' true Hv')) as (M2 & E2 & P2 & S2).
  exists M2. unfold bs_items. destruct Hv as [_ Hv]. destruct Hv' as [_ Hv'].
  rewrite (Hv false), (Hv true), (Hv' false), (Hv' true). cbn [get]. rewrite E1, E2. split; [|reflexivity].
  f_equal. f_equal. apply (sorted_perm_eq (before sd oracle)).
  - intros x y. apply before_irr.
  - exact S1.
  - apply ssorted_snoc; [exact S2|]. intros [c' l'] Hy. apply (Permutation_in _ P2) in Hy.
    apply Hw.
    + intros l0 [H0|[-> ->]]; [apply Hrep'; exact H0|]. apply Hrep. exact Hl.
    + unfold entries in Hy. apply in_app_or in Hy as [Hy|Hy]; apply in_map_iff in Hy as (z & Ez & Hz);
        injection Ez as <- <-; cbn [get]; [exact Hz|]. apply filter_In in Hz as [Hz _]. exact Hz.
  - rewrite P1. rewrite (entries_minus oracle b c l b' Hm Hrep). rewrite <- P2.
    apply (Permutation_cons_append M2 (c, l)).
Qed.
