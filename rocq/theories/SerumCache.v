(** The health cache after a spot order instruction is the one that would be built from the account's new state. *)
From Coq Require Import List ZArith Lia Bool Permutation.
From Verif Require Import OrderTree Keys PerpTypes Interest InterestFacts Bank Health HealthSkip LiqState TokenLiq TokenLiqFacts Serum SerumSpec SerumFacts Fixed.
Import ListNotations.
Open Scope Z_scope.

Definition bump (x : fx) (w : fx * fx) (t : tinfo) : tinfo := set_spot t (ti_spot t - (- x)) (fst w) (snd w).
Definition pos_bump (idx : Z) (x : fx) (w : fx * fx) (nn : bool) (p : pos_in) : pos_in :=
  if ti_index (pin_info p) =? idx then mkPosIn (pin_available p) (pin_oracle_ok p) nn (bump x w (pin_info p)) else p.

Lemma build_tokens_in skip L T : build_tokens skip L = Some T -> forall t, In t T -> In (ti_index t) (map (fun p => ti_index (pin_info p)) L).
Proof.
  revert T. induction L as [|p L IH]; intros T H t I; cbn [build_tokens] in H.
  - apply some_inj in H. subst T. destruct I.
  - cbn [map In]. destruct (skip && negb (pin_available p)).
    { destruct (pin_nonneg p); [|discriminate]. right. eapply IH; eassumption. }
    destruct (skip && negb (pin_oracle_ok p) && pin_nonneg p); [right; eapply IH; eassumption|].
    destruct (pin_available p && pin_oracle_ok p); [|discriminate]. destruct (build_tokens skip L) as [T0|]; [|discriminate]. apply some_inj in H. subst T.
    destruct I as [<-|I]; [left; reflexivity|right; eapply IH; [reflexivity|exact I]].
Qed.
Lemma map_bump_id idx x w nn L : ~ In idx (map (fun p => ti_index (pin_info p)) L) -> map (pos_bump idx x w nn) L = L.
Proof.
  induction L as [|p L IH]; intros H; [reflexivity|]. cbn [map In] in *. rewrite IH by tauto. f_equal. unfold pos_bump.
  destruct (Z.eqb_spec (ti_index (pin_info p)) idx); [tauto|reflexivity].
Qed.
Lemma build_tokens_bump skip idx x w nn L : NoDup (map (fun p => ti_index (pin_info p)) L) -> forall T i, build_tokens skip L = Some T -> token_pos T idx = Some i ->
  build_tokens skip (map (pos_bump idx x w nn) L) = Some (update_nth T i (bump x w)).
Proof.
  induction L as [|p L IH]; intros ND T i H P; cbn [build_tokens] in H.
  - apply some_inj in H. subst T. discriminate.
  - cbn [map] in ND. inversion ND as [|? ? NI ND']; subst. cbn [map].
    destruct (Z.eqb_spec (ti_index (pin_info p)) idx) as [E|E].
    + rewrite map_bump_id by (rewrite <- E; exact NI). unfold pos_bump. rewrite E, Z.eqb_refl. cbn [build_tokens pin_available pin_oracle_ok pin_nonneg pin_info].
      assert (NO : forall T0, build_tokens skip L = Some T0 -> token_pos T0 idx = None).
      { intros T0 B. destruct (token_pos T0 idx) as [j|] eqn:J; [|reflexivity]. exfalso. apply NI. rewrite E.
        apply HealthFacts.token_pos_lt in J as (_ & t & N & Q). rewrite <- Q. eapply build_tokens_in; [exact B|]. eapply nth_error_In, N. }
      destruct (skip && negb (pin_available p)) eqn:S1.
      { destruct (pin_nonneg p); [|discriminate]. rewrite (NO _ H) in P. discriminate. }
      destruct (skip && negb (pin_oracle_ok p) && pin_nonneg p) eqn:S2; [rewrite (NO _ H) in P; discriminate|].
      destruct (pin_available p && pin_oracle_ok p) eqn:S3; [|discriminate]. apply andb_prop in S3 as [S3 S4]. rewrite S4. cbn [negb andb]. rewrite andb_false_r. cbn [andb].
      destruct (build_tokens skip L) as [T0|]; [|discriminate]. apply some_inj in H. subst T. cbn [token_pos] in P. rewrite E, Z.eqb_refl in P. apply some_inj in P. subst i. reflexivity.
    + replace (pos_bump idx x w nn p) with p by (unfold pos_bump; destruct (Z.eqb_spec (ti_index (pin_info p)) idx); [contradiction|reflexivity]).
      cbn [build_tokens]. destruct (skip && negb (pin_available p)); [destruct (pin_nonneg p); [|discriminate]; apply IH; assumption|].
      destruct (skip && negb (pin_oracle_ok p) && pin_nonneg p); [apply IH; assumption|].
      destruct (pin_available p && pin_oracle_ok p); [|discriminate]. destruct (build_tokens skip L) as [T0|] eqn:B; [|discriminate]. apply some_inj in H. subst T.
      cbn [token_pos] in P. destruct (Z.eqb_spec (ti_index (pin_info p)) idx); [contradiction|]. destruct (token_pos T0 idx) as [j|] eqn:J; [|discriminate]. apply some_inj in P. subst i.
      rewrite (IH ND' _ _ eq_refl J). reflexivity.
Qed.

Lemma add_spot_bump x w y t : add_spot (bump x w t) y = bump x w (add_spot t y).
Proof. unfold add_spot, bump, set_spot. cbn. f_equal. lia. Qed.
Lemma add_at_bump x w y : forall T i j, add_spot_at (update_nth T i (bump x w)) j y = update_nth (add_spot_at T j y) i (bump x w).
Proof. induction T as [|t T IH]; intros [|i] [|j]; cbn [update_nth add_spot_at]; try reflexivity; f_equal; [apply add_spot_bump|apply IH]. Qed.
Lemma bump_index x w t : ti_index (bump x w t) = ti_index t. Proof. reflexivity. Qed.
Lemma build_serum_bump skip x w i O : forall T T' R, build_serum skip O T = Some (T', R) ->
  build_serum skip O (update_nth T i (bump x w)) = Some (update_nth T' i (bump x w), R).
Proof.
  induction O as [|o O IH]; intros T T' R H; cbn [build_serum] in *.
  - apply some_inj in H. apply pair_equal_spec in H as [-> ->]. reflexivity.
  - rewrite !token_pos_update by (intro; apply bump_index). destruct (token_pos T (sin_base o)) as [b|].
    + destruct (token_pos T (sin_quote o)) as [q|]; [|destruct skip; [apply IH, H|discriminate]].
      destruct (new_sinfo _ _ _ _ _ _) as [si|]; [|discriminate]. destruct (build_serum skip O _) as [[T1 R1]|] eqn:B; [|discriminate]. apply some_inj in H. apply pair_equal_spec in H as [-> <-].
      rewrite !add_at_bump, (IH _ _ _ B). reflexivity.
    + destruct skip; [apply IH, H|discriminate].
Qed.
Lemma adjust_built skip L O P hc idx x w nn hc' : NoDup (map (fun p => ti_index (pin_info p)) L) ->
  build_cache skip L O P = Some hc -> adjust_token_balance hc idx x w = Some hc' -> build_cache skip (map (pos_bump idx x w nn) L) O P = Some hc'.
Proof.
  intros ND H A. unfold build_cache in *. destruct (build_tokens skip L) as [T|] eqn:BT; [|discriminate]. destruct (build_serum skip O T) as [[T' R]|] eqn:BS; [|discriminate].
  destruct (skip && negb _) eqn:F; [discriminate|]. apply some_inj in H. subst hc. unfold adjust_token_balance in A. cbn [hc_tokens hc_serum hc_perps] in A.
  destruct (token_pos T' idx) as [i|] eqn:TP; [|discriminate]. apply some_inj in A. subst hc'.
  assert (E : map ti_index T' = map ti_index T) by (eapply build_serum_idx; exact BS).
  rewrite (token_pos_idx _ _ idx E) in TP.
  rewrite (build_tokens_bump _ _ _ _ _ _ ND _ _ BT TP). change (fun t : tinfo => set_spot t (ti_spot t - - x) (fst w) (snd w)) with (bump x w).
  rewrite (build_serum_bump _ _ _ i _ _ _ _ BS).
  assert (Q : forallb (fun pi => match token_pos (update_nth T' i (bump x w)) (pi_settle pi) with Some _ => true | None => false end) P =
    forallb (fun pi => match token_pos T' (pi_settle pi) with Some _ => true | None => false end) P).
  { clear. induction P as [|p P IH]; [reflexivity|]. cbn [forallb]. rewrite IH, token_pos_update by (intro; apply bump_index). reflexivity. }
  rewrite Q, F. reflexivity.
Qed.

(** orders *)
Lemma add_spot_comm x y : forall T i j, add_spot_at (add_spot_at T i x) j y = add_spot_at (add_spot_at T j y) i x.
Proof.
  induction T as [|t T IH]; intros [|i] [|j]; cbn [add_spot_at]; try reflexivity; f_equal; [|apply IH].
  unfold add_spot. cbn. f_equal. lia.
Qed.
Lemma add_spot_add x y : forall T i, add_spot_at (add_spot_at T i x) i y = add_spot_at T i (x + y).
Proof. induction T as [|t T IH]; intros [|i]; cbn [add_spot_at]; try reflexivity; f_equal; [|apply IH]. unfold add_spot. cbn. f_equal. lia. Qed.
Lemma token_pos_add T j x idx : token_pos (add_spot_at T j x) idx = token_pos T idx.
Proof. apply token_pos_idx. revert j. induction T as [|t T IH]; intros [|j]; cbn [add_spot_at map]; try reflexivity. rewrite IH. reflexivity. Qed.
Lemma build_serum_add skip j x O : forall T T' R, build_serum skip O T = Some (T', R) -> build_serum skip O (add_spot_at T j x) = Some (add_spot_at T' j x, R).
Proof.
  induction O as [|o O IH]; intros T T' R H; cbn [build_serum] in *.
  - apply some_inj in H. apply pair_equal_spec in H as [-> ->]. reflexivity.
  - rewrite !token_pos_add. destruct (token_pos T (sin_base o)) as [b|].
    + destruct (token_pos T (sin_quote o)) as [q|]; [|destruct skip; [apply IH, H|discriminate]].
      destruct (new_sinfo _ _ _ _ _ _) as [si|]; [|discriminate]. destruct (build_serum skip O _) as [[T1 R1]|] eqn:B; [|discriminate]. apply some_inj in H. apply pair_equal_spec in H as [-> <-].
      rewrite (add_spot_comm x), (add_spot_comm x), (IH _ _ _ B). reflexivity.
    + destruct skip; [apply IH, H|discriminate].
Qed.
Lemma new_sinfo_fields oo a h b q m si : new_sinfo oo a h b q m = Some si -> si_base si = b /\ si_quote si = q /\ si_market si = m.
Proof. unfold new_sinfo. destruct (_ || _); [discriminate|]. intros H. apply some_inj in H. subst si. auto. Qed.
Lemma build_serum_markets skip O : forall T T' R si, build_serum skip O T = Some (T', R) -> In si R -> In (si_market si) (map sin_market O).
Proof.
  induction O as [|o O IH]; intros T T' R si H I; cbn [build_serum] in H.
  - apply some_inj in H. apply pair_equal_spec in H as [_ <-]. destruct I.
  - cbn [map In]. destruct (token_pos T (sin_base o)) as [b|].
    + destruct (token_pos T (sin_quote o)) as [q|]; [|destruct skip; [right; eapply IH; eassumption|discriminate]].
      destruct (new_sinfo _ _ _ _ _ _) as [s0|] eqn:N; [|discriminate]. destruct (build_serum skip O _) as [[T1 R1]|] eqn:B; [|discriminate]. apply some_inj in H. apply pair_equal_spec in H as [_ <-].
      destruct I as [<-|I]; [left; symmetry; eapply new_sinfo_fields; exact N|right; eapply IH; eassumption].
    + destruct skip; [right; eapply IH; eassumption|discriminate].
Qed.
Lemma orders_now_id e so' oo' O : ~ In (se_market e) (map sin_market O) -> map (orders_now e so' oo') O = O.
Proof.
  induction O as [|o O IH]; intros H; [reflexivity|]. cbn [map In] in *. rewrite IH by tauto. f_equal. unfold orders_now. destruct (Z.eqb_spec (sin_market o) (se_market e)); [tauto|reflexivity].
Qed.
Lemma market_pos_in R m i : market_pos R m = Some i -> exists si, In si R /\ si_market si = m.
Proof.
  revert i. induction R as [|s R IH]; intros i H; cbn [market_pos] in H; [discriminate|]. destruct (Z.eqb_spec (si_market s) m) as [E|E]; [exists s; split; [left; reflexivity|exact E]|].
  destruct (market_pos R m) as [j|]; [|discriminate]. destruct (IH _ eq_refl) as (si & I & Q). exists si. split; [right; exact I|exact Q].
Qed.
Lemma build_serum_now skip e so' oo oo' O : NoDup (map sin_market O) -> (forall o, In o O -> sin_market o = se_market e -> sin_oo o = oo) ->
  forall T T' R i si si', build_serum skip O T = Some (T', R) -> market_pos R (se_market e) = Some i -> nth_error R i = Some si ->
  new_sinfo oo' (pf_ask (se_pf e) (so_ask_lo so')) (pf_bid_inv (se_pf e) (so_bid_hi so')) (si_base si) (si_quote si) (si_market si) = Some si' ->
  build_serum skip (map (orders_now e so' oo') O) T =
  Some (add_spot_at (add_spot_at T' (si_base si) (of_int (oo_base_free oo') - of_int (oo_base_free oo))) (si_quote si) (of_int (oo_quote_free oo') - of_int (oo_quote_free oo)),
        update_nth R i (fun _ => si')).
Proof.
  induction O as [|o O IH]; intros ND HO T T' R i si si' H M N NS; cbn [build_serum] in H.
  - apply some_inj in H. apply pair_equal_spec in H as [_ <-]. discriminate.
  - cbn [map] in ND. inversion ND as [|? ? NI ND']; subst. cbn [map build_serum].
    assert (HO' : forall o, In o O -> sin_market o = se_market e -> sin_oo o = oo) by (intros; apply HO; [right|]; assumption).
    assert (SK : forall T0, build_serum skip O T0 = Some (T', R) -> sin_market o <> se_market e).
    { intros T0 B E. apply NI. rewrite E. apply market_pos_in in M as (s0 & I & Q). rewrite <- Q. eapply build_serum_markets; eassumption. }
    assert (OB : sin_base (orders_now e so' oo' o) = sin_base o) by (unfold orders_now; destruct (_ =? _); reflexivity).
    assert (OQ : sin_quote (orders_now e so' oo' o) = sin_quote o) by (unfold orders_now; destruct (_ =? _); reflexivity). rewrite OB, OQ.
    destruct (token_pos T (sin_base o)) as [b|].
    + destruct (token_pos T (sin_quote o)) as [q|]; [|destruct skip; [eapply IH; eassumption|discriminate]].
      destruct (new_sinfo (sin_oo o) _ _ _ _ _) as [s0|] eqn:N0; [|discriminate]. destruct (build_serum skip O _) as [[T1 R1]|] eqn:B; [|discriminate]. apply some_inj in H. apply pair_equal_spec in H as [-> <-].
      pose proof (new_sinfo_fields _ _ _ _ _ _ _ N0) as (F1 & F2 & F3). cbn [market_pos] in M. rewrite F3 in M.
      destruct (Z.eqb_spec (sin_market o) (se_market e)) as [E|E].
      * apply some_inj in M. subst i. cbn [nth_error] in N. apply some_inj in N. subst s0. rewrite F1, F2, F3 in *.
        assert (OE : orders_now e so' oo' o = mkSerumIn (sin_base o) (sin_quote o) oo' (pf_ask (se_pf e) (so_ask_lo so')) (pf_bid_inv (se_pf e) (so_bid_hi so')) (sin_market o))
          by (unfold orders_now; rewrite E, Z.eqb_refl; reflexivity).
        rewrite OE. cbn [sin_oo sin_low_ask sin_high_bid_inv sin_market]. rewrite NS.
        rewrite orders_now_id by (rewrite <- E; exact NI). rewrite (HO o (or_introl eq_refl) E) in B.
        assert (TE : add_spot_at (add_spot_at T b (of_int (oo_base_free oo'))) q (of_int (oo_quote_free oo')) =
          add_spot_at (add_spot_at (add_spot_at (add_spot_at T b (of_int (oo_base_free oo))) q (of_int (oo_quote_free oo))) b (of_int (oo_base_free oo') - of_int (oo_base_free oo))) q (of_int (oo_quote_free oo') - of_int (oo_quote_free oo))).
        { rewrite (add_spot_comm _ _ _ q b), !add_spot_add. f_equal; [f_equal|]; lia. }
        rewrite TE, (build_serum_add _ _ _ _ _ _ _ (build_serum_add _ _ _ _ _ _ _ B)). reflexivity.
      * replace (orders_now e so' oo' o) with o by (unfold orders_now; destruct (Z.eqb_spec (sin_market o) (se_market e)); [contradiction|reflexivity]). rewrite N0.
        destruct (market_pos R1 (se_market e)) as [j|] eqn:M1; [|discriminate]. apply some_inj in M. subst i. cbn [nth_error] in N.
        rewrite (IH ND' HO' _ _ _ _ _ _ B M1 N NS). reflexivity.
    + destruct skip; [eapply IH; eassumption|discriminate].
Qed.
Lemma recompute_built skip L O P e so' oo oo' hc i hc' : NoDup (map sin_market O) -> (forall o, In o O -> sin_market o = se_market e -> sin_oo o = oo) ->
  build_cache skip L O P = Some hc -> market_pos (hc_serum hc) (se_market e) = Some i -> recompute_serum (se_pf e) hc i so' oo oo' = Some hc' ->
  build_cache skip L (map (orders_now e so' oo') O) P = Some hc'.
Proof.
  intros ND HO H M A. unfold build_cache in *. destruct (build_tokens skip L) as [T|] eqn:BT; [|discriminate]. destruct (build_serum skip O T) as [[T' R]|] eqn:BS; [|discriminate].
  destruct (skip && negb _) eqn:F; [discriminate|]. apply some_inj in H. subst hc. unfold recompute_serum in A. cbn [hc_tokens hc_serum hc_perps] in *.
  destruct (nth_error R i) as [si|] eqn:N; [|discriminate]. destruct (new_sinfo oo' _ _ _ _ _) as [si'|] eqn:NS; [|discriminate]. apply some_inj in A. subst hc'.
  rewrite (build_serum_now _ _ _ _ _ _ ND HO _ _ _ _ _ _ BS M N NS).
  match goal with |- context [forallb ?f P] => assert (Q : forallb f P = forallb (fun pi => match token_pos T' (pi_settle pi) with Some _ => true | None => false end) P) end.
  { clear. induction P as [|p P IH]; [reflexivity|]. cbn [forallb]. rewrite IH, !token_pos_add. reflexivity. }
  rewrite Q, F. reflexivity.
Qed.

Lemma bump_now idx x y w nn L : (forall p, In p L -> ti_index (pin_info p) = idx -> ti_spot (pin_info p) = y) -> map (pos_bump idx x w nn) L = map (position_now idx (y + x) w nn) L.
Proof.
  intros H. apply map_ext_in. intros p I. unfold pos_bump, position_now. destruct (Z.eqb_spec (ti_index (pin_info p)) idx) as [E|E]; [|reflexivity].
  unfold bump. rewrite (H p I E). replace (y - - x) with (y + x) by ring. reflexivity.
Qed.
Lemma now_index idx x w nn p : ti_index (pin_info (position_now idx x w nn p)) = ti_index (pin_info p).
Proof. unfold position_now. destruct (_ =? _); reflexivity. Qed.
Lemma now_swap i j x y v w n m L : i <> j ->
  map (position_now i x v n) (map (position_now j y w m) L) = map (position_now j y w m) (map (position_now i x v n) L).
Proof.
  intros NE. rewrite !map_map. apply map_ext. intros p. unfold position_now.
  destruct (Z.eqb_spec (ti_index (pin_info p)) j) as [E|E]; destruct (Z.eqb_spec (ti_index (pin_info p)) i) as [F|F]; cbn [pin_info set_spot ti_index];
    repeat match goal with |- context [?a =? ?b] => destruct (Z.eqb_spec a b) end; try reflexivity; congruence.
Qed.
Lemma two_adjusts skip L O P hc i j x y a b v w n m hc1 hc2 : NoDup (map (fun p => ti_index (pin_info p)) L) -> i <> j ->
  (forall p, In p L -> ti_index (pin_info p) = i -> ti_spot (pin_info p) = a) -> (forall p, In p L -> ti_index (pin_info p) = j -> ti_spot (pin_info p) = b) ->
  build_cache skip L O P = Some hc -> adjust_token_balance hc i x v = Some hc1 -> adjust_token_balance hc1 j y w = Some hc2 ->
  build_cache skip (map (position_now j (b + y) w m) (map (position_now i (a + x) v n) L)) O P = Some hc2.
Proof.
  intros ND NE HI HJ B A1 A2. apply (adjust_built _ _ _ _ _ _ _ _ n _ ND B) in A1. rewrite (bump_now _ _ a) in A1 by exact HI.
  assert (ND1 : NoDup (map (fun p => ti_index (pin_info p)) (map (position_now i (a + x) v n) L))).
  { rewrite map_map. erewrite map_ext; [exact ND|]. intros p. apply now_index. }
  apply (adjust_built _ _ _ _ _ _ _ _ m _ ND1 A1) in A2. rewrite (bump_now _ _ b) in A2; [exact A2|].
  intros p I E. apply in_map_iff in I as (q & <- & I). rewrite now_index in E. unfold position_now. destruct (Z.eqb_spec (ti_index (pin_info q)) i) as [F|F]; [congruence|apply HJ; assumption].
Qed.
Lemma cache_now skip e L O P hc xb xq cb cq wb wq nb nq hc1 hc2 i hc3 (so' : sorders) oo oo' (payer_base : bool) : se_base e <> se_quote e -> shows e xb xq oo L O ->
  build_cache skip L O P = Some hc ->
  (if payer_base then adjust_token_balance hc (se_quote e) cq wq = Some hc1 /\ adjust_token_balance hc1 (se_base e) cb wb = Some hc2
   else adjust_token_balance hc (se_base e) cb wb = Some hc1 /\ adjust_token_balance hc1 (se_quote e) cq wq = Some hc2) ->
  market_pos (hc_serum hc2) (se_market e) = Some i -> recompute_serum (se_pf e) hc2 i so' oo oo' = Some hc3 ->
  build_cache skip (positions_now e (xb + cb) (xq + cq) wb wq nb nq L) (map (orders_now e so' oo') O) P = Some hc3.
Proof.
  intros NE (N1 & N2 & S1 & S2 & S3) B A M R. unfold positions_now.
  assert (B2 : build_cache skip (map (position_now (se_base e) (xb + cb) wb nb) (map (position_now (se_quote e) (xq + cq) wq nq) L)) O P = Some hc2).
  { destruct payer_base; destruct A as [A1 A2].
    - refine (two_adjusts _ _ _ _ _ _ _ _ _ _ _ _ _ _ _ _ _ N1 _ S2 S1 B A1 A2). congruence.
    - rewrite now_swap by exact NE. exact (two_adjusts _ _ _ _ _ _ _ _ _ _ _ _ _ _ _ _ _ N1 NE S1 S2 B A1 A2). }
  rewrite map_map in B2. refine (recompute_built _ _ _ _ _ _ _ _ _ _ _ N2 _ B2 M R). intros o I E. apply (S3 o I E).
Qed.
