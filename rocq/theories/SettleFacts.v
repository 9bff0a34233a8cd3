From Coq Require Import List ZArith Lia Bool.
From Verif Require Import OrderTree Keys Fixed BookSpec PerpTypes SettleLimit SettleSpec.
Import ListNotations.
Open Scope Z_scope.

Lemma sat64_range x : i64_min <= sat64 x <= i64_max.
Proof. unfold sat64, i64_min, i64_max. lia. Qed.
Lemma sat64_le x : 0 <= sat64 x -> sat64 x <= Z.max x 0.
Proof. unfold sat64, i64_min, i64_max. lia. Qed.
Lemma sat64_ge x : sat64 x <= 0 -> Z.min x 0 <= sat64 x.
Proof. unfold sat64, i64_min, i64_max. lia. Qed.
Lemma sat64_id x : i64_min <= x <= i64_max -> sat64 x = x.
Proof. unfold sat64. lia. Qed.
Lemma sat64_nonneg x : 0 <= x -> 0 <= sat64 x <= x.
Proof. unfold sat64, i64_min, i64_max. lia. Qed.
Lemma sat64_nonpos x : x <= 0 -> x <= sat64 x <= 0.
Proof. unfold sat64, i64_min, i64_max. lia. Qed.

Lemma sig_round_nonneg d x : 0 <= x -> 0 <= sig_round d x.
Proof.
  intros Hx. unfold sig_round. destruct (_ <=? 0) eqn:E; [exact Hx|]. cbv zeta. apply Z.leb_gt in E.
  set (e := Z.log2 (Z.abs x) - (d - 1)) in *.
  assert (0 < 2 ^ e) by (apply Z.pow_pos_nonneg; lia).
  assert (0 <= Z.abs x / 2 ^ e) by (apply Z.div_pos; lia).
  assert (0 <= Z.sgn x) by (apply Z.sgn_nonneg; exact Hx).
  apply Z.mul_nonneg_nonneg; [lia|]. apply Z.mul_nonneg_nonneg; [|lia].
  repeat match goal with |- context[if ?b then _ else _] => destruct b end; lia.
Qed.
Lemma unrealized_nonneg p mk c : 0 <= sc_m c -> 0 <= sc_e c -> 0 <= unrealized_limit p mk c.
Proof.
  intros Hm He. unfold unrealized_limit. apply sat64_nonneg. apply Z.quot_pos.
  - apply sig_round_nonneg. apply Z.mul_nonneg_nonneg; [|exact Hm]. apply sig_round_nonneg, Z.abs_nonneg.
  - apply Z.mul_pos_pos; [apply fone_pos|apply Z.pow_pos_nonneg; lia].
Qed.
Lemma ceil_int_nonneg a : 0 <= a -> 0 <= ceil_int a.
Proof. intros. pose proof (ceil_int_bounds a). unfold of_int in *. pose proof fone_pos. nia. Qed.
Lemma stable_upnl_nonneg p mk c : 0 <= stable_upnl_abs p mk c.
Proof. apply ceil_int_nonneg, Z.abs_nonneg. Qed.
Lemma fceil_bounds a : a <= fceil a < a + fone.
Proof. pose proof (ceil_int_bounds a). unfold fceil, of_int, ceil_int in *. lia. Qed.
Lemma fceil_int a : fceil a = of_int (ceil_int a). Proof. reflexivity. Qed.
Lemma ffloor_int a : ffloor a = of_int (to_int a). Proof. reflexivity. Qed.

(** the settle limit: bounds *)
Lemma settle_limit_bounds p l mk c mn mx : 0 <= sc_m c -> 0 <= sc_e c -> settle_limit p l mk c = (mn, mx) ->
  0 <= mx /\ mn <= 0 /\ of_int mx < of_int (unrealized_limit p mk c + Z.abs (lm_rec l)) + Z.max (p_oneshot p) 0 + fone /\
  of_int (- mn) < of_int (unrealized_limit p mk c + Z.abs (lm_rec l)) + Z.max (- p_oneshot p) 0 + fone.
Proof.
  intros Hm He. unfold settle_limit. destruct (Z.ltb_spec (sc_m c) 0); [lia|].
  pose proof (unrealized_nonneg p mk c Hm He) as Hu. pose proof (stable_upnl_nonneg p mk c) as Hs.
  set (u := unrealized_limit p mk c) in *. set (x := Z.min (Z.abs (lm_rec l)) (stable_upnl_abs p mk c)).
  assert (Hx : 0 <= x <= Z.abs (lm_rec l)) by (unfold x; lia).
  pose proof fone_pos as Hf. set (os := p_oneshot p).
  destruct (Z.leb_spec 0 os) as [Ho|Ho]; intros E; injection E as <- <-.
  - unfold clamp64. rewrite fceil_int, to_int_of_int. pose proof (ceil_int_bounds os) as Hc. pose proof (ceil_int_nonneg os Ho) as Hc0.
    pose proof (sat64_nonneg (ceil_int os) Hc0) as Hc1. pose proof (sat64_nonneg (u + x + sat64 (ceil_int os)) ltac:(lia)) as Hc2.
    unfold of_int in *. set (z := sat64 (u + x + _)) in *. set (cc := ceil_int os) in *. repeat apply conj; [lia|lia| |].
    + rewrite Z.max_l by lia. rewrite (Z.max_l os) by lia. nia.
    + rewrite Z.min_l by lia. nia.
  - unfold clamp64. rewrite ffloor_int, to_int_of_int. pose proof (to_int_bounds os) as Hc.
    assert (Hc0 : to_int os <= 0) by (unfold of_int in Hc; nia).
    pose proof (sat64_nonpos (to_int os) Hc0) as Hc1. pose proof (sat64_nonpos (- (u + x) + sat64 (to_int os)) ltac:(lia)) as Hc2.
    unfold of_int in *. set (z := sat64 (- (u + x) + _)) in *. set (cc := to_int os) in *. repeat apply conj; [lia|lia| |].
    + rewrite Z.max_l by lia. nia.
    + rewrite Z.min_l by lia. rewrite (Z.max_l (- os)) by lia. nia.
Qed.

Lemma available_bounds p l mk c : 0 <= sc_m c -> 0 <= sc_e c ->
  i64_min <= fst (available_settle_limit p l mk c) <= 0 /\ 0 <= snd (available_settle_limit p l mk c) <= i64_max /\
  (0 < snd (available_settle_limit p l mk c) -> of_int (snd (available_settle_limit p l mk c)) < allowance_up mk c p l + fone) /\
  (fst (available_settle_limit p l mk c) < 0 -> of_int (- fst (available_settle_limit p l mk c)) < allowance_down mk c p l + fone).
Proof.
  intros Hm He. unfold available_settle_limit. destruct (Z.ltb_spec (sc_m c) 0); [lia|].
  destruct (settle_limit p l mk c) as [mn mx] eqn:E. destruct (settle_limit_bounds _ _ _ _ _ _ Hm He E) as (H1 & H2 & H3 & H4).
  cbn [fst snd]. pose proof (sat64_range (mn - lm_used l)). pose proof (sat64_range (mx - lm_used l)).
  pose proof fone_pos as Hf.
  split; [unfold i64_min, i64_max in *; lia|]. split; [unfold i64_min, i64_max in *; lia|]. split; intros Hp.
  - assert (Hs : sat64 (mx - lm_used l) <= mx - lm_used l).
    { pose proof (sat64_le (mx - lm_used l)). lia. }
    unfold allowance_up, of_int in *. set (z := sat64 (mx - lm_used l)) in *. rewrite Z.max_l by lia. nia.
  - assert (Hs : mn - lm_used l <= sat64 (mn - lm_used l)).
    { pose proof (sat64_ge (mn - lm_used l)). lia. }
    unfold allowance_down, of_int in *. set (z := sat64 (mn - lm_used l)) in *. rewrite Z.min_l by lia. nia.
Qed.

Lemma rtz_pos x : 0 <= x -> of_int (rtz_int x) <= x < of_int (rtz_int x + 1) /\ 0 <= rtz_int x.
Proof.
  intros Hx. unfold rtz_int, of_int. pose proof fone_pos as Hf. pose proof (Z.quot_rem' x fone). pose proof (Z.rem_bound_pos x fone Hx Hf).
  split; [nia|]. apply Z.quot_pos; lia.
Qed.
Lemma rtz_neg x : x <= 0 -> of_int (rtz_int x - 1) < x <= of_int (rtz_int x) /\ rtz_int x <= 0.
Proof.
  intros Hx. destruct (rtz_pos (- x) ltac:(lia)) as [H1 H2]. unfold rtz_int in *. rewrite Z.quot_opp_l in * by (pose proof fone_pos; lia).
  unfold of_int in *. lia.
Qed.

Lemma constrain_spec p l mk c l' d : constrain_recurring p l mk c = (l', d) ->
  lm_window l' = lm_window l /\ lm_used l' = lm_used l /\ 0 <= lm_rec l' <= Z.abs (lm_rec l) /\ d = lm_rec l' - Z.abs (lm_rec l) /\
  lm_rec l' <= ceil_int (Z.abs (unsettled_pnl p mk (sc_stable c))).
Proof.
  unfold constrain_recurring. set (u := ceil_int _).
  assert (Hu : 0 <= u) by (apply ceil_int_nonneg, Z.abs_nonneg).
  intros E. injection E as <- <-. cbn [lm_window lm_used lm_rec]. repeat apply conj; try reflexivity; lia.
Qed.

Lemma record_settle_base p l mk c s : p_base (fst (record_settle p l mk c s)) = p_base p /\
  p_quote (fst (record_settle p l mk c s)) = p_quote p - s /\
  lm_window (snd (record_settle p l mk c s)) = lm_window l /\
  p_long_settled (fst (record_settle p l mk c s)) = p_long_settled p /\ p_short_settled (fst (record_settle p l mk c s)) = p_short_settled p /\
  p_bids (fst (record_settle p l mk c s)) = p_bids p /\ p_asks (fst (record_settle p l mk c s)) = p_asks p /\
  p_taker_base (fst (record_settle p l mk c s)) = p_taker_base p /\ p_taker_quote (fst (record_settle p l mk c s)) = p_taker_quote p.
Proof.
  unfold record_settle. destruct (constrain_recurring _ _ _ _) as [l' d] eqn:E. apply constrain_spec in E as (Ew & _).
  cbn [fst snd lm_window]. rewrite Ew. unfold add_quote. cbn [p_base p_quote p_long_settled p_short_settled p_bids p_asks p_taker_base p_taker_quote].
  repeat apply conj; try reflexivity; lia.
Qed.
Lemma record_settle_recurring p l mk c s p' l' : record_settle p l mk c s = (p', l') ->
  0 <= lm_rec l' <= ceil_int (Z.abs (unsettled_pnl p' mk (sc_stable c))).
Proof.
  unfold record_settle. destruct (constrain_recurring _ _ _ _) as [l1 d] eqn:E. pose proof E as E'. apply constrain_spec in E as (_ & _ & E1 & _ & E2).
  intros H. injection H as <- <-. cbn [lm_rec]. lia.
Qed.
Lemma unrealized_base p p' mk c : p_base p = p_base p' -> unrealized_limit p mk c = unrealized_limit p' mk c.
Proof. unfold unrealized_limit. intros ->. reflexivity. Qed.

(** one settlement uses up the allowance, up to one native unit of rounding *)
Lemma settle_uses_up mk c p l s p' l' : record_settle p l mk c s = (p', l') -> of_int i64_min <= s <= of_int i64_max ->
  allowance_up mk c p' l' <= allowance_up mk c p l - s + (if 0 <? s then fone else 0) /\
  allowance_down mk c p' l' <= allowance_down mk c p l + s + (if 0 <? s then 0 else fone).
Proof.
  intros H Hr. pose proof (record_settle_base p l mk c s) as (HB & _). rewrite H in HB. cbn [fst] in HB.
  unfold allowance_up, allowance_down. rewrite (unrealized_base p' p mk c HB). set (u := unrealized_limit p mk c).
  unfold record_settle in H. destruct (constrain_recurring _ _ _ _) as [l1 d] eqn:E.
  apply constrain_spec in E as (E1 & E2 & E3 & E4 & _). injection H as <- <-. cbn [lm_rec lm_used add_quote p_oneshot].
  rewrite E2. rewrite (Z.abs_eq (lm_rec l1)) by lia. set (r1 := lm_rec l1) in *. set (r := Z.abs (lm_rec l)) in *. subst d.
  set (os := p_oneshot p). pose proof fone_pos as Hf.
  destruct (Z.ltb_spec 0 s) as [Hs|Hs].
  - set (red := Z.max (Z.min s os) 0). assert (Hred : 0 <= red <= s) by (unfold red; lia).
    destruct (rtz_pos (s - red) ltac:(lia)) as [Hz1 Hz2]. set (z := rtz_int (s - red)) in *.
    assert (Hz3 : sat64 z = z).
    { apply sat64_id. unfold of_int in *. split; [unfold i64_min; lia|]. apply (Z.mul_le_mono_pos_r _ _ fone); lia. }
    rewrite Hz3. assert (Hos : Z.max (os + - red) 0 = Z.max os 0 - red) by (unfold red; lia).
    assert (Hos2 : Z.max (- (os + - red)) 0 = Z.max (- os) 0) by (unfold red; lia). rewrite Hos, Hos2.
    unfold of_int in *. clearbody red z u r r1 os.
    destruct (Z.ltb_spec (r1 - r) 0), (Z.ltb_spec 0 z); split; nia.
  - set (red := Z.min (Z.max s os) 0). assert (Hred : s <= red <= 0) by (unfold red; lia).
    destruct (rtz_neg (s - red) ltac:(lia)) as [Hz1 Hz2]. set (z := rtz_int (s - red)) in *.
    assert (Hz3 : sat64 z = z).
    { apply sat64_id. unfold of_int in *. split; [apply (Z.mul_le_mono_pos_r _ _ fone); lia|unfold i64_max; lia]. }
    rewrite Hz3. assert (Hos : Z.max (os + - red) 0 = Z.max os 0) by (unfold red; lia).
    assert (Hos2 : Z.max (- (os + - red)) 0 = Z.max (- os) 0 + red) by (unfold red; lia). rewrite Hos, Hos2.
    unfold of_int in *. clearbody red z u r r1 os.
    destruct (Z.ltb_spec (r1 - r) 0), (Z.ltb_spec 0 z); split; nia.
Qed.

Lemma sumZ_cons x L : sumZ (x :: L) = x + sumZ L. Proof. reflexivity. Qed.
Lemma settle_all_bound mk c : 0 <= sc_m c -> 0 <= sc_e c -> forall L p l r, settle_all mk c p l L = Some r ->
  sumZ L <= Z.max 0 (allowance_up mk c p l + of_int (Z.of_nat (length L))) /\
  - sumZ L <= Z.max 0 (allowance_down mk c p l + of_int (Z.of_nat (length L))).
Proof.
  intros Hm He. induction L as [|s L IH]; intros p l r H.
  - unfold sumZ. cbn [fold_right]. lia.
  - cbn [settle_all] in H. destruct (within_limit mk c p l s) eqn:EW; [|discriminate].
    destruct (record_settle p l mk c s) as [p' l'] eqn:ER. specialize (IH _ _ _ H).
    unfold within_limit in EW. apply andb_true_iff in EW as [W1 W2]. apply Z.leb_le in W1, W2.
    destruct (available_bounds p l mk c Hm He) as (A1 & A2 & A3 & A4).
    set (mn := fst _) in *. set (mx := snd _) in *.
    assert (Hr : of_int i64_min <= s <= of_int i64_max).
    { unfold of_int in *. pose proof fone_pos. nia. }
    destruct (settle_uses_up _ _ _ _ _ _ _ ER Hr) as [U1 U2].
    rewrite sumZ_cons. cbn [length]. rewrite Nat2Z.inj_succ. unfold of_int in *. pose proof fone_pos as Hf.
    rewrite Z.mul_succ_l. set (N := Z.of_nat (length L) * fone) in *. assert (0 <= N) by (unfold N; nia).
    destruct (Z.ltb_spec 0 s).
    + assert (0 < mx) by nia. specialize (A3 ltac:(lia)). lia.
    + destruct (Z.eq_dec s 0) as [->|].
      * lia.
      * assert (mn < 0) by nia. specialize (A4 ltac:(lia)). lia.
Qed.
