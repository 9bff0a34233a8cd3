From Coq Require Import List ZArith Lia Bool Arith Permutation Sorted.
From Verif Require Import OrderTree OrderTreeSpec KeyBits OrderTreeRep OrderTreeOps2 BookArena BookArenaProofs
  BookArenaFacts Keys BookSide BookSideSpec.
Import ListNotations.
Open Scope Z_scope.

Definition okey (l : leaf) : Prop := 0 <= l_key l < 2 ^ 128.

Definition spec_state (sd : side) (now oracle : Z) (e : entry) : ostate :=
  if is_expired (snd e) now then Invalid
  else if fst e && (negb (l_peg_limit (snd e) =? -1) && is_price_better sd (eff_price oracle e) (l_peg_limit (snd e)))
       then Invalid else Valid.
Definition item_of (sd : side) (now oracle : Z) (e : entry) : item :=
  mkItem (fst e) (snd e) (eff_price oracle e) (spec_state sd now oracle e).

Lemma is_price_better_iff sd p q : is_price_better sd p q = true <-> better_price sd p q.
Proof. unfold is_price_better, better_price. destruct sd; apply Z.ltb_lt. Qed.
Lemma is_price_better_false sd p q : is_price_better sd p q = false <-> ~ better_price sd p q.
Proof. unfold is_price_better, better_price. destruct sd; rewrite Z.ltb_ge; lia. Qed.

Lemma spec_state_valid sd now oracle e :
  spec_state sd now oracle e = Valid <-> matchable sd now oracle e.
Proof.
  unfold spec_state, matchable, is_expired.
  destruct (Z.ltb_spec 0 (l_tif (snd e))), (Z.leb_spec (l_timestamp (snd e) + l_tif (snd e)) now);
    cbn [andb]; try (split; [discriminate|intros [H1 _]; exfalso; apply H1; lia]).
  all: destruct (fst e); cbn [andb]; [|split; [intros _; split; [lia|discriminate]|reflexivity]].
  all: destruct (Z.eqb_spec (l_peg_limit (snd e)) (-1)) as [E|E]; cbn [negb andb];
    [split; [intros _; split; [lia|intros _ ?; contradiction]|reflexivity]|].
  all: destruct (is_price_better sd (eff_price oracle e) (l_peg_limit (snd e))) eqn:B;
    [apply is_price_better_iff in B; split; [discriminate|intros [_ H3]; exfalso; exact (H3 eq_refl E B)]
    |apply is_price_better_false in B; split; [intros _; split; [lia|intros _ _; exact B]|reflexivity]].
Qed.

Lemma price_data_div l : price_data l = l_key l / 2 ^ 64.
Proof. unfold price_data. rewrite Z.shiftr_div_pow2 by lia. reflexivity. Qed.

Lemma pd_range l : okey l -> 0 <= l_key l / 2 ^ 64 <= u64_max.
Proof.
  unfold okey, u64_max. intros H. split; [apply Z.div_pos; lia|].
  enough (l_key l / 2 ^ 64 < 2 ^ 64) by lia.
  apply Z.div_lt_upper_bound; lia.
Qed.

Lemma key_split l : l_key l = (l_key l / 2 ^ 64) * 2 ^ 64 + l_key l mod 2 ^ 64.
Proof. rewrite Z.mul_comm. apply Z.div_mod. lia. Qed.
Lemma low_range l : 0 <= l_key l mod 2 ^ 64 <= u64_max.
Proof. unfold u64_max. pose proof (Z.mod_pos_bound (l_key l) (2 ^ 64) ltac:(lia)). lia. Qed.

(** ** pegged prices *)
Lemma pegged_skip oracle sd l : in_i64 oracle -> okey l ->
  is_skipped oracle sd l = negb (representable oracle l).
Proof.
  intros Ho Hk. unfold is_skipped, oracle_pegged_price, representable, eff_price. cbn [fst snd].
  rewrite price_data_div, pegged_offset_eq by (apply pd_range; exact Hk).
  pose proof (pd_range l Hk) as Hr. set (d := l_key l / 2 ^ 64) in *. clearbody d.
  unfold sat_add, in_i64, i64_min, i64_max, u64_max in *.
  set (pr := oracle + (d - 2 ^ 63)) in *.
  set (cl := Z.max (- 2 ^ 63) (Z.min (2 ^ 63 - 1) pr)).
  assert (E : (1 <=? cl) && (cl <? 2 ^ 63 - 1) = ((1 <=? pr) && (pr <? 2 ^ 63 - 1))).
  { unfold cl. destruct (Z.leb_spec 1 pr), (Z.ltb_spec pr (2 ^ 63 - 1)),
      (Z.leb_spec 1 (Z.max (- 2 ^ 63) (Z.min (2 ^ 63 - 1) pr))),
      (Z.ltb_spec (Z.max (- 2 ^ 63) (Z.min (2 ^ 63 - 1) pr)) (2 ^ 63 - 1)); cbn [andb]; lia || reflexivity. }
  rewrite E. destruct ((1 <=? pr) && (pr <? 2 ^ 63 - 1)); cbn [negb]; [|reflexivity].
  destruct (negb (l_peg_limit l =? -1) && is_price_better sd cl (l_peg_limit l)); reflexivity.
Qed.

(** clamped price of a pegged order *)
Definition clamp_price (p : Z) : Z := Z.max 1 (Z.min i64_max p).

Lemma pegged_price_val oracle sd l : in_i64 oracle -> okey l ->
  snd (oracle_pegged_price oracle l sd) = clamp_price (eff_price oracle (true, l)).
Proof.
  intros Ho Hk. unfold oracle_pegged_price, eff_price, clamp_price. cbn [fst snd].
  rewrite price_data_div, pegged_offset_eq by (apply pd_range; exact Hk).
  pose proof (pd_range l Hk) as Hr. set (d := l_key l / 2 ^ 64) in *. clearbody d.
  unfold sat_add, in_i64, i64_min, i64_max, u64_max in *.
  set (pr := oracle + (d - 2 ^ 63)) in *.
  set (cl := Z.max (- 2 ^ 63) (Z.min (2 ^ 63 - 1) pr)).
  destruct ((1 <=? cl) && (cl <? 2 ^ 63 - 1)) eqn:E.
  - apply andb_true_iff in E as [E1 E2]. apply Z.leb_le in E1. apply Z.ltb_lt in E2.
    destruct (negb (l_peg_limit l =? -1) && is_price_better sd cl (l_peg_limit l)); cbn [snd];
      unfold cl in *; lia.
  - cbn [snd]. unfold cl. lia.
Qed.

Lemma pegged_repr oracle sd l : in_i64 oracle -> okey l -> representable oracle l = true ->
  oracle_pegged_price oracle l sd =
  ((if negb (l_peg_limit l =? -1) && is_price_better sd (eff_price oracle (true, l)) (l_peg_limit l)
    then Invalid else Valid), eff_price oracle (true, l)).
Proof.
  intros Ho Hk Hrep. pose proof (pegged_skip oracle sd l Ho Hk) as Hs.
  pose proof (pegged_price_val oracle sd l Ho Hk) as Hv.
  rewrite Hrep in Hs. cbn [negb] in Hs.
  assert (Ec : clamp_price (eff_price oracle (true, l)) = eff_price oracle (true, l)).
  { unfold representable in Hrep. apply andb_true_iff in Hrep as [H1 H2].
    apply Z.leb_le in H1. apply Z.ltb_lt in H2. unfold clamp_price. lia. }
  rewrite Ec in Hv. revert Hs Hv. unfold is_skipped, oracle_pegged_price.
  set (pr := sat_add oracle (oracle_pegged_price_offset (price_data l))).
  destruct ((1 <=? pr) && (pr <? i64_max)); [|discriminate].
  destruct (negb (l_peg_limit l =? -1) && is_price_better sd pr (l_peg_limit l)) eqn:E;
    cbn [snd fst]; intros _ Hv; rewrite <- Hv; rewrite E; reflexivity.
Qed.

Lemma kffp key price : 1 <= price <= i64_max ->
  key_for_fixed_price key price = Some (price * 2 ^ 64 + key mod 2 ^ 64).
Proof.
  unfold i64_max. intros H. unfold key_for_fixed_price, fixed_price_data.
  destruct (Z.leb_spec 1 price); [|lia]. unfold as_u64.
  rewrite (Z.mod_small price) by lia. f_equal. apply lor_key.
  unfold in_u64, u64_max. pose proof (Z.mod_pos_bound key (2 ^ 64) ltac:(lia)). lia.
Qed.

Lemma fixed_item sd now oracle l : fixed_ok l ->
  fixed_to_result l now = Some (item_of sd now oracle (false, l)).
Proof.
  unfold fixed_ok, fixed_to_result, fixed_price_lots. rewrite price_data_div. intros H.
  destruct (Z.leb_spec (l_key l / 2 ^ 64) i64_max); [|lia].
  unfold as_i64. cbn zeta. unfold i64_max in *. rewrite Z.mod_small by lia.
  destruct (Z.ltb_spec (l_key l / 2 ^ 64) (2 ^ 63)); [|lia].
  unfold item_of, spec_state, eff_price. cbn [fst snd andb]. destruct (is_expired l now); reflexivity.
Qed.

Lemma pegged_item sd now oracle l : in_i64 oracle -> okey l -> representable oracle l = true ->
  exists st p, oracle_pegged_price oracle l sd = (st, p) /\ p = eff_price oracle (true, l) /\
    pegged_to_result l p st now = item_of sd now oracle (true, l).
Proof.
  intros Ho Hk Hrep. rewrite (pegged_repr oracle sd l Ho Hk Hrep).
  eexists _, _. split; [reflexivity|]. split; [reflexivity|].
  unfold pegged_to_result, item_of, spec_state. cbn [fst snd andb].
  destruct (is_expired l now); reflexivity.
Qed.

(** ** the order *)
Lemma before_trans sd oracle x y z : before sd oracle x y -> before sd oracle y z -> before sd oracle x z.
Proof.
  unfold before, better_price. destruct sd; intros [H1|(H1&[H2|(H2&H3&H4)])] [H5|(H5&[H6|(H6&H7&H8)])];
    try (left; lia); right; (split; [lia|]); try (left; lia); try (right; repeat split; lia || assumption).
Qed.
Lemma before_irr sd oracle x y : before sd oracle x y -> before sd oracle y x -> False.
Proof.
  unfold before, better_price. destruct sd; intros [H1|(H1&[H2|(H2&H3&H4)])] [H5|(H5&[H6|(H6&H7&H8)])];
    try lia; congruence.
Qed.
Lemma worse_before sd oracle c x y : worse sd y x -> before sd oracle (c, x) (c, y).
Proof.
  unfold worse, before, better_price, eff_price, seqno. cbn [fst snd].
  pose proof (key_split x) as Ex. pose proof (key_split y) as Ey.
  pose proof (low_range x) as Lx. pose proof (low_range y) as Ly.
  set (a := l_key x / 2 ^ 64) in *. set (b := l_key y / 2 ^ 64) in *.
  set (m := l_key x mod 2 ^ 64) in *. set (n := l_key y mod 2 ^ 64) in *.
  clearbody a b m n. unfold u64_max in *. rewrite Ex, Ey.
  destruct sd, c; intros H; destruct (Z.eq_dec a b) as [->|]; (left; lia) || (right; split; [lia|left; lia]).
Qed.
Lemma fixed_vs_pegged (sd : side) oracle f o : 
  (if sd then eff_price oracle (true, o) * 2 ^ 64 + l_key o mod 2 ^ 64 <? l_key f
         else l_key f <? eff_price oracle (true, o) * 2 ^ 64 + l_key o mod 2 ^ 64) = true ->
  before sd oracle (false, f) (true, o).
Proof.
  unfold before, better_price, seqno. 
  cbn [fst snd]. set (p := eff_price oracle (true, o)). unfold eff_price. cbn [fst snd].
  pose proof (key_split f) as Ex. pose proof (low_range f) as Lx. pose proof (low_range o) as Ly.
  set (a := l_key f / 2 ^ 64) in *. set (m := l_key f mod 2 ^ 64) in *.
  set (n := l_key o mod 2 ^ 64) in *. clearbody a m n. unfold u64_max in *. rewrite Ex.
  destruct sd; rewrite Z.ltb_lt; intros H; destruct (Z.eq_dec a p) as [->|];
    (left; lia) || (right; split; [lia|left; lia]).
Qed.
Lemma pegged_vs_fixed (sd : side) oracle f o : 
  (if sd then eff_price oracle (true, o) * 2 ^ 64 + l_key o mod 2 ^ 64 <? l_key f
         else l_key f <? eff_price oracle (true, o) * 2 ^ 64 + l_key o mod 2 ^ 64) = false ->
  before sd oracle (true, o) (false, f).
Proof.
  unfold before, better_price, seqno. 
  cbn [fst snd]. set (p := eff_price oracle (true, o)). unfold eff_price. cbn [fst snd].
  pose proof (key_split f) as Ex. pose proof (low_range f) as Lx. pose proof (low_range o) as Ly.
  set (a := l_key f / 2 ^ 64) in *. set (m := l_key f mod 2 ^ 64) in *.
  set (n := l_key o mod 2 ^ 64) in *. clearbody a m n. unfold u64_max in *. rewrite Ex.
  destruct sd; rewrite Z.ltb_ge; intros H; destruct (Z.eq_dec a p) as [->|]; try (left; lia);
    right; (split; [lia|]); destruct (Z.eq_dec m n) as [->|];
    [right; repeat split; lia|left; lia|right; repeat split; lia|left; lia].
Qed.

(** ** the merged iteration *)
Lemma drop_skipped_filter oracle sd P : in_i64 oracle -> Forall okey P ->
  filter (representable oracle) (drop_skipped oracle sd P) = filter (representable oracle) P.
Proof.
  intros Ho H. induction H as [|l P Hl HP IH]; [reflexivity|]. cbn [drop_skipped filter].
  rewrite pegged_skip by assumption.
  destruct (representable oracle l) eqn:E; cbn [negb filter]; [rewrite E; reflexivity|exact IH].
Qed.
Lemma drop_skipped_suffix oracle sd P : exists A, P = A ++ drop_skipped oracle sd P.
Proof.
  induction P as [|l P [A IH]]; [exists []; reflexivity|]. cbn [drop_skipped].
  destruct (is_skipped oracle sd l); [exists (l :: A); cbn; congruence|exists []; reflexivity].
Qed.
Lemma drop_skipped_head oracle sd P l P' : in_i64 oracle -> Forall okey P ->
  drop_skipped oracle sd P = l :: P' -> representable oracle l = true.
Proof.
  intros Ho H. induction H as [|x P Hl HP IH]; cbn [drop_skipped]; [discriminate|].
  destruct (is_skipped oracle sd x) eqn:E; [exact IH|]. intros Heq. injection Heq as -> ->.
  rewrite pegged_skip in E by assumption. destruct (representable oracle l); [reflexivity|discriminate].
Qed.

Lemma ssorted_suffix {A} (R : A -> A -> Prop) L1 L2 : StronglySorted R (L1 ++ L2) -> StronglySorted R L2.
Proof. induction L1; cbn; [auto|]. intros H; inversion H; auto. Qed.
Lemma ssorted_filter {A} (R : A -> A -> Prop) f L : StronglySorted R L -> StronglySorted R (filter f L).
Proof.
  induction 1 as [|x L HL IH HF]; cbn; [constructor|]. destruct (f x); [|exact IH].
  constructor; [exact IH|]. rewrite Forall_forall in *. intros y Hy. apply HF.
  apply filter_In in Hy as [Hy _]. exact Hy.
Qed.

Definition lsorted (sd : side) (L : list leaf) := StronglySorted (fun x y => worse sd y x) L.

Lemma items_ok sd now oracle : in_i64 oracle -> forall fuel F P,
  (length F + length P < fuel)%nat ->
  lsorted sd F -> lsorted sd P -> Forall fixed_ok F -> Forall okey P ->
  exists M, iter_items fuel sd now oracle (F, P) = Some (map (item_of sd now oracle) M) /\
    Permutation M (entries oracle F P) /\ StronglySorted (before sd oracle) M.
Proof.
  intros Ho. induction fuel as [|fuel IH]; intros F P Hlen HF HP HfF HkP; [lia|].
  cbn [iter_items]. unfold iter_next.
  pose proof (drop_skipped_filter oracle sd P Ho HkP) as Hfil.
  destruct (drop_skipped_suffix oracle sd P) as [A HA].
  pose proof (drop_skipped_head oracle sd P) as Hhead.
  unfold entries. rewrite <- Hfil.
  remember (drop_skipped oracle sd P) as Q eqn:EQ. clear EQ.
  assert (HQ : lsorted sd Q) by (rewrite HA in HP; exact (ssorted_suffix _ _ _ HP)).
  assert (HkQ : Forall okey Q) by (rewrite HA in HkP; apply Forall_app in HkP; tauto).
  assert (HlQ : (length Q <= length P)%nat) by (rewrite HA, app_length; lia).
  clear HP Hfil HA. 
  destruct F as [|f F]; destruct Q as [|o Q]; cbn [hd_error rank_orders].
  - exists []. split; [reflexivity|]. cbn. split; [reflexivity|constructor].
  - assert (Hrep : representable oracle o = true) by (eapply Hhead; auto).
    inversion HkQ as [|? ? Hko HkQ']; subst. inversion HQ as [|? ? HQ' HQf]; subst.
    destruct (pegged_item sd now oracle o Ho Hko Hrep) as (st & p & E1 & E2 & E3).
    rewrite E1, E3. cbn [it_pegged item_of fst tl].
    destruct (IH [] Q) as (M & H1 & H2 & H3); cbn [length] in *; try (assumption || lia || constructor).
    rewrite H1. exists ((true, o) :: M). split; [reflexivity|].
    unfold entries in H2. cbn [map app filter] in *. rewrite Hrep. cbn [map]. split; [constructor; exact H2|].
    constructor; [exact H3|]. apply Forall_forall. intros y Hy.
    apply (Permutation_in _ H2) in Hy. apply in_map_iff in Hy as (z & <- & Hz).
    apply filter_In in Hz as [Hz _]. apply worse_before. rewrite Forall_forall in HQf. apply HQf, Hz.
  - inversion HfF as [|? ? Hfo HfF']; subst. inversion HF as [|? ? HF' HFf]; subst.
    rewrite (fixed_item sd now oracle f Hfo). cbn [it_pegged item_of fst tl].
    destruct (IH F []) as (M & H1 & H2 & H3); cbn [length] in *; try (assumption || lia || constructor).
    rewrite H1. exists ((false, f) :: M). split; [reflexivity|].
    unfold entries in H2. cbn [map app filter] in *. split; [constructor; exact H2|].
    constructor; [exact H3|]. apply Forall_forall. intros y Hy.
    apply (Permutation_in _ H2) in Hy. rewrite app_nil_r in Hy. apply in_map_iff in Hy as (z & <- & Hz).
    apply worse_before. rewrite Forall_forall in HFf. apply HFf, Hz.
  - assert (Hrep : representable oracle o = true) by (eapply Hhead; auto).
    inversion HkQ as [|? ? Hko HkQ']; subst. inversion HQ as [|? ? HQ' HQf]; subst.
    inversion HfF as [|? ? Hfo HfF']; subst. inversion HF as [|? ? HF' HFf]; subst.
    destruct (pegged_item sd now oracle o Ho Hko Hrep) as (st & p & E1 & E2 & E3).
    rewrite E1.
    assert (Hp : 1 <= p <= i64_max).
    { subst p. unfold representable in Hrep. apply andb_true_iff in Hrep as [Ha Hb].
      apply Z.leb_le in Ha. apply Z.ltb_lt in Hb. lia. }
    rewrite (kffp (l_key o) p Hp). rewrite xorb_false_r.
    destruct (if sd then p * 2 ^ 64 + l_key o mod 2 ^ 64 <? l_key f
              else l_key f <? p * 2 ^ 64 + l_key o mod 2 ^ 64) eqn:Ecmp.
    + rewrite (fixed_item sd now oracle f Hfo). cbn [it_pegged item_of fst tl].
      destruct (IH F (o :: Q)) as (M & H1 & H2 & H3); cbn [length] in *; try (assumption || lia || constructor).
      rewrite H1. exists ((false, f) :: M). split; [reflexivity|].
      unfold entries in H2. cbn [map app filter] in *. split; [constructor; exact H2|].
      constructor; [exact H3|]. apply Forall_forall. intros y Hy.
      apply (Permutation_in _ H2) in Hy. apply in_app_or in Hy as [Hy|Hy].
      * apply in_map_iff in Hy as (z & <- & Hz).
        apply worse_before. rewrite Forall_forall in HFf. apply HFf, Hz.
      * subst p. apply fixed_vs_pegged in Ecmp. rewrite Hrep in Hy. cbn [map] in Hy.
        destruct Hy as [<-|Hy]; [exact Ecmp|].
        apply in_map_iff in Hy as (z & <- & Hz). apply filter_In in Hz as [Hz _].
        eapply before_trans; [exact Ecmp|]. apply worse_before.
        rewrite Forall_forall in HQf. apply HQf, Hz.
    + rewrite E3. cbn [it_pegged item_of fst tl].
      destruct (IH (f :: F) Q) as (M & H1 & H2 & H3); cbn [length] in *; try (assumption || lia || constructor).
      rewrite H1. exists ((true, o) :: M). split; [reflexivity|].
      unfold entries in H2. cbn [map app filter] in *. rewrite Hrep. cbn [map].
      split; [exact (Permutation_cons_app ((false, f) :: map (pair false) F) _ (true, o) H2)|].
      constructor; [exact H3|]. apply Forall_forall. intros y Hy.
      subst p. apply pegged_vs_fixed in Ecmp.
      apply (Permutation_in _ H2) in Hy. destruct Hy as [<-|Hy]; [exact Ecmp|].
      apply in_app_or in Hy as [Hy|Hy].
      * apply in_map_iff in Hy as (z & <- & Hz). eapply before_trans; [exact Ecmp|].
        apply worse_before. rewrite Forall_forall in HFf. apply HFf, Hz.
      * apply in_map_iff in Hy as (z & <- & Hz). apply filter_In in Hz as [Hz _].
        apply worse_before. rewrite Forall_forall in HQf. apply HQf, Hz.
Qed.

Lemma merge_ok sd now oracle F P : in_i64 oracle ->
  lsorted sd F -> lsorted sd P -> Forall fixed_ok F -> Forall okey P ->
  exists M, merge_items sd now oracle F P = Some (map (item_of sd now oracle) M) /\
    Permutation M (entries oracle F P) /\ StronglySorted (before sd oracle) M.
Proof. intros. apply items_ok; auto. Qed.
