(** Spot open orders are valued at most at their worst outcome. *)
From Coq Require Import List ZArith Lia Bool Arith.
From Verif Require Import Fixed Health HealthSpec HealthFacts HealthDiv.
Import ListNotations.
Open Scope Z_scope.

Definition A_of (t : tinfo) (ty : htype) : Z := asset_weight t ty * asset_price (ti_prices t) ty.
Definition L_of (t : tinfo) (ty : htype) : Z := liab_weight t ty * liab_price (ti_prices t) ty.
Lemma AL_order t ty : token_ok t -> haircut t -> 0 <= A_of t ty <= L_of t ty.
Proof.
  intros T H. pose proof T as (A & B & C & D & P). unfold haircut in H. unfold A_of, L_of.
  pose proof (asset_weight_le t ty ty (stricter_refl ty) T). pose proof (asset_price_le _ ty ty (stricter_refl ty) P). pose proof (liab_price_le _ ty ty (stricter_refl ty) P).
  assert (W : asset_weight t ty <= liab_weight t ty) by (destruct ty; cbn [asset_weight liab_weight]; lia).
  assert (Q : asset_price (ti_prices t) ty <= liab_price (ti_prices t) ty) by (destruct ty; cbn [asset_price liab_price]; lia).
  split; [nia|]. apply Z.mul_le_mono_nonneg; lia.
Qed.
Lemma exact1 t ty x : exact_value1 t ty x = x * (if x <? 0 then L_of t ty else A_of t ty).
Proof. reflexivity. Qed.
Lemma exact_concave t ty r x y : token_ok t -> haircut t ->
  0 <= r -> x <= y -> exact_value1 t ty y - exact_value1 t ty (y - r) <= exact_value1 t ty x - exact_value1 t ty (x - r).
Proof.
  intros T H Hr Hxy. pose proof (AL_order t ty T H) as O. rewrite !exact1. set (A := A_of t ty) in *. set (L := L_of t ty) in *. clearbody A L.
  destruct (Z.ltb_spec y 0), (Z.ltb_spec (y - r) 0), (Z.ltb_spec x 0), (Z.ltb_spec (x - r) 0); try lia; nia.
Qed.
Lemma exact_mono t a b x y : stricter a b -> token_ok t -> x <= y -> exact_value1 t a x <= exact_value1 t b y.
Proof.
  intros S T H. rewrite !exact1. pose proof T as (_ & _ & _ & _ & P).
  assert (A : 0 <= A_of t a <= A_of t b).
  { pose proof (asset_weight_le t a b S T). pose proof (asset_price_le _ a b S P). unfold A_of. split; [nia|apply Z.mul_le_mono_nonneg; lia]. }
  assert (L : 0 <= L_of t b <= L_of t a).
  { pose proof (liab_weight_le t a b S T). pose proof (liab_price_le _ a b S P). unfold L_of. split; [nia|apply Z.mul_le_mono_nonneg; lia]. }
  destruct (Z.ltb_spec x 0), (Z.ltb_spec y 0); try nia.
Qed.

(** the effect of one market on one token, between exact values *)
Lemma effect_upper t ty b m r : token_ok t -> haircut t -> 0 <= r ->
  health_effect t ty b m r * (fone * fone) <= exact_value1 t ty (b + m) - exact_value1 t ty (b + m - r).
Proof.
  intros T H Hr. pose proof (AL_order t ty T H) as O. unfold health_effect. cbv zeta. set (M := b + m). clearbody M.
  pose proof T as (_ & _ & _ & _ & P).
  pose proof (asset_weight_le t ty ty (stricter_refl ty) T) as AW. pose proof (asset_price_le _ ty ty (stricter_refl ty) P) as AP.
  pose proof (liab_weight_le t ty ty (stricter_refl ty) T) as LW. pose proof (liab_price_le _ ty ty (stricter_refl ty) P) as LP.
  assert (X : forall x w p, 0 <= x -> 0 <= w -> 0 <= p -> fmul (fmul x w) p * (fone * fone) <= x * (w * p)).
  { intros x w p X1 X2 X3. pose proof (fmul_bounds x w). pose proof (fmul_bounds (fmul x w) p). pose proof fone_pos. set (u := fmul x w) in *. set (v := fmul u p) in *. clearbody u v.
    apply Z.le_trans with (u * p * fone); [nia|]. replace (u * p * fone) with (u * fone * p) by ring. replace (x * (w * p)) with (x * w * p) by ring. apply Z.mul_le_mono_nonneg_r; lia. }
  rewrite !exact1. unfold A_of, L_of in *.
  set (aw := asset_weight t ty) in *. set (ap := asset_price (ti_prices t) ty) in *. set (lw := liab_weight t ty) in *. set (lp := liab_price (ti_prices t) ty) in *. clearbody aw ap lw lp.
  assert (Z0 : forall w p, fmul (fmul 0 w) p = 0) by (intros; rewrite !fmul_0_l; reflexivity).
  destruct (Z.leb_spec r M).
  - rewrite Z0, Z.add_0_r. pose proof (X r aw ap). destruct (Z.ltb_spec M 0); [lia|]. destruct (Z.ltb_spec (M - r) 0); [lia|]. lia.
  - destruct (Z.ltb_spec M 0).
    + rewrite Z0, Z.add_0_l. pose proof (X r lw lp). destruct (Z.ltb_spec (M - r) 0); [|lia]. lia.
    + pose proof (X M aw ap). pose proof (X (r - M) lw lp). destruct (Z.ltb_spec (M - r) 0); [|lia]. lia.
Qed.
Lemma effect_lower t ty b m r : token_ok t -> haircut t -> 0 <= r ->
  exact_value1 t ty (b + m) - exact_value1 t ty (b + m - r) <=
  health_effect t ty b m r * (fone * fone) + 2 * (liab_price (ti_prices t) ty + fone) * fone.
Proof.
  intros T H Hr. pose proof (AL_order t ty T H) as O. unfold health_effect. cbv zeta. set (M := b + m). clearbody M.
  pose proof T as (_ & _ & _ & _ & P).
  pose proof (asset_weight_le t ty ty (stricter_refl ty) T) as AW. pose proof (asset_price_le _ ty ty (stricter_refl ty) P) as AP.
  pose proof (liab_weight_le t ty ty (stricter_refl ty) T) as LW. pose proof (liab_price_le _ ty ty (stricter_refl ty) P) as LP.
  assert (Q : asset_price (ti_prices t) ty <= liab_price (ti_prices t) ty) by (destruct ty; cbn [asset_price liab_price]; lia).
  assert (X : forall x w p, 0 <= x -> 0 <= w -> 0 <= p -> x * (w * p) <= fmul (fmul x w) p * (fone * fone) + (p + fone) * fone).
  { intros x w p X1 X2 X3. pose proof (fmul_bounds x w) as F1. pose proof (fmul_bounds (fmul x w) p) as F2. pose proof fone_pos. set (u := fmul x w) in *. set (v := fmul u p) in *. clearbody u v.
    assert (x * w * p <= (u * fone + fone) * p) by (apply Z.mul_le_mono_nonneg_r; lia).
    assert (u * p * fone <= (v * fone + fone) * fone) by (apply Z.mul_le_mono_nonneg_r; lia). lia. }
  assert (Y : forall p, 0 <= p -> 0 <= (p + fone) * fone) by (intros; pose proof fone_pos; nia).
  rewrite !exact1. unfold A_of, L_of in *.
  set (aw := asset_weight t ty) in *. set (ap := asset_price (ti_prices t) ty) in *. set (lw := liab_weight t ty) in *. set (lp := liab_price (ti_prices t) ty) in *. clearbody aw ap lw lp.
  assert (YY : (ap + fone) * fone <= (lp + fone) * fone) by (apply Z.mul_le_mono_nonneg_r; pose proof fone_pos; lia).
  assert (Z0 : forall w p, fmul (fmul 0 w) p = 0) by (intros; rewrite !fmul_0_l; reflexivity).
  specialize (Y lp ltac:(lia)).
  destruct (Z.leb_spec r M).
  - rewrite Z0, Z.add_0_r. pose proof (X r aw ap). destruct (Z.ltb_spec M 0); [lia|]. destruct (Z.ltb_spec (M - r) 0); [lia|]. lia.
  - destruct (Z.ltb_spec M 0).
    + rewrite Z0, Z.add_0_l. pose proof (X r lw lp). destruct (Z.ltb_spec (M - r) 0); [|lia]. lia.
    + pose proof (X M aw ap). pose proof (X (r - M) lw lp). destruct (Z.ltb_spec (M - r) 0); [|lia]. lia.
Qed.
Lemma contribution_upper t ty x : token_ok t -> contribution t ty x * (fone * fone) <= exact_value1 t ty x + fone * Z.max (- x) 0.
Proof.
  intros T. unfold contribution. rewrite exact1. unfold A_of, L_of, asset_wp, liab_wp. pose proof T as (_ & _ & _ & _ & P).
  pose proof (asset_weight_le t ty ty (stricter_refl ty) T). pose proof (asset_price_le _ ty ty (stricter_refl ty) P).
  pose proof (liab_weight_le t ty ty (stricter_refl ty) T). pose proof (liab_price_le _ ty ty (stricter_refl ty) P).
  pose proof fone_pos. destruct (Z.ltb_spec x 0).
  - set (w := liab_weight t ty) in *. set (p := liab_price _ ty) in *. pose proof (fmul_bounds w p) as F1. set (u := fmul w p) in *. pose proof (fmul_bounds x u) as F2. set (v := fmul x u) in *. clearbody w p u v.
    assert (v * fone * fone <= x * u * fone) by (apply Z.mul_le_mono_nonneg_r; lia). assert (x * (u * fone) <= x * (w * p) - x * fone) by nia. rewrite Z.max_l by lia. nia.
  - set (w := asset_weight t ty) in *. set (p := asset_price _ ty) in *. pose proof (fmul_bounds w p) as F1. set (u := fmul w p) in *. pose proof (fmul_bounds x u) as F2. set (v := fmul x u) in *. clearbody w p u v.
    assert (v * fone * fone <= x * u * fone) by (apply Z.mul_le_mono_nonneg_r; lia). assert (x * (u * fone) <= x * (w * p)) by nia. rewrite Z.max_r by lia. nia.
Qed.
Lemma contribution_lower t ty x : token_ok t -> exact_value1 t ty x <= contribution t ty x * (fone * fone) + fone * Z.max x 0 + fone * fone.
Proof.
  intros T. unfold contribution. rewrite exact1. unfold A_of, L_of, asset_wp, liab_wp. pose proof T as (_ & _ & _ & _ & P).
  pose proof (asset_weight_le t ty ty (stricter_refl ty) T). pose proof (asset_price_le _ ty ty (stricter_refl ty) P).
  pose proof (liab_weight_le t ty ty (stricter_refl ty) T). pose proof (liab_price_le _ ty ty (stricter_refl ty) P).
  pose proof fone_pos. destruct (Z.ltb_spec x 0).
  - set (w := liab_weight t ty) in *. set (p := liab_price _ ty) in *. pose proof (fmul_bounds w p) as F1. set (u := fmul w p) in *. pose proof (fmul_bounds x u) as F2. set (v := fmul x u) in *. clearbody w p u v.
    assert (x * u * fone <= (v * fone + fone) * fone) by (apply Z.mul_le_mono_nonneg_r; lia). assert (x * (w * p) <= x * (u * fone)) by nia. rewrite Z.max_r by lia. nia.
  - set (w := asset_weight t ty) in *. set (p := asset_price _ ty) in *. pose proof (fmul_bounds w p) as F1. set (u := fmul w p) in *. pose proof (fmul_bounds x u) as F2. set (v := fmul x u) in *. clearbody w p u v.
    assert (x * u * fone <= (v * fone + fone) * fone) by (apply Z.mul_le_mono_nonneg_r; lia). assert (x * (w * p) <= x * (u * fone) + x * fone) by nia. rewrite Z.max_l by lia. nia.
Qed.

(** ** lists *)
Lemma exact_cons t toks ty x B : exact_value (t :: toks) ty (x :: B) = exact_value1 t ty x + exact_value toks ty B.
Proof. reflexivity. Qed.
Lemma exact_add_at toks ty : forall B i t r, nth_error toks i = Some t -> (i < length B)%nat ->
  exact_value toks ty (add_at B i r) = exact_value toks ty B + exact_value1 t ty (nth i B 0 + r) - exact_value1 t ty (nth i B 0).
Proof.
  induction toks as [|u toks IH]; intros [|x B] [|i] t r Hn Hl; try discriminate; try (cbn in Hl; lia).
  - cbn [nth_error] in Hn. apply some_inj in Hn; subst u. cbn [add_at nth]. rewrite !exact_cons. lia.
  - cbn [nth_error] in Hn. cbn [add_at nth]. rewrite !exact_cons. rewrite (IH B i t r Hn) by (cbn in Hl; lia). lia.
Qed.
Lemma tokens_upper toks ty B : Forall token_ok toks -> length B = length toks ->
  sum (token_contributions toks ty B) * (fone * fone) <= exact_value toks ty B + fone * borrowed B.
Proof.
  intros T. revert B. induction T as [|t toks Ht _ IH]; intros [|x B] HL; try (cbn in HL; lia); [reflexivity|].
  unfold token_contributions in *. cbn [combine map]. rewrite sum_cons, exact_cons. unfold borrowed in *. cbn [map]. rewrite sum_cons. cbn [fst snd].
  pose proof (contribution_upper t ty x Ht). specialize (IH B ltac:(cbn in HL; lia)). lia.
Qed.
Lemma tokens_lower toks ty B : Forall token_ok toks -> length B = length toks ->
  exact_value toks ty B <= sum (token_contributions toks ty B) * (fone * fone) + fone * held B + fone * fone * Z.of_nat (length toks).
Proof.
  intros T. revert B. induction T as [|t toks Ht _ IH]; intros [|x B] HL; try (cbn in HL; lia); [cbn [length]; unfold exact_value, token_contributions, held; cbn [combine map]; change (sum []) with 0; lia|].
  unfold token_contributions in *. cbn [combine map length]. rewrite sum_cons, exact_cons. unfold held in *. cbn [map]. rewrite sum_cons. cbn [fst snd].
  pose proof (contribution_lower t ty x Ht). specialize (IH B ltac:(cbn in HL; lia)). rewrite Nat2Z.inj_succ. lia.
Qed.

Lemma reserved_nonneg si ty q b r : serum_ok si -> token_ok q -> token_ok b -> priced q -> priced b ->
  reserved_as_base si ty q b = Some r \/ reserved_as_quote si ty q b = Some r -> 0 <= r.
Proof.
  intros (S1 & S2 & S3 & S4) Tq Tb [Q1 Q2] [B1 B2]. pose proof Tq as (_ & _ & _ & _ & Pq). pose proof Tb as (_ & _ & _ & _ & Pb).
  assert (LP : forall t, 0 < pr_oracle (ti_prices t) -> 0 < pr_stable (ti_prices t) -> 0 < liab_price (ti_prices t) ty) by (intros; destruct ty; cbn [liab_price]; lia).
  pose proof (asset_price_le _ ty ty (stricter_refl ty) Pq). pose proof (asset_price_le _ ty ty (stricter_refl ty) Pb).
  unfold reserved_as_base, reserved_as_quote. intros [X|X].
  - destruct (div_f64 _ _) as [o|] eqn:E; [|discriminate]. apply some_inj in X; subst r.
    apply div_f64_nonneg in E; [|apply fmul_nonneg; lia|apply LP; assumption]. destruct (_ =? 0); lia.
  - destruct (div_f64 _ _) as [o|] eqn:E; [|discriminate]. apply some_inj in X; subst r.
    apply div_f64_nonneg in E; [|apply fmul_nonneg; lia|apply LP; assumption]. destruct (_ =? 0); lia.
Qed.

(** total reserved for the token at [j] *)
Definition tot (O : list sinfo) (R : list (fx * fx)) (j : nat) : Z :=
  sum (map (fun sr => (if (si_base (fst sr) =? j)%nat then fst (snd sr) else 0) + (if (si_quote (fst sr) =? j)%nat then snd (snd sr) else 0)) (combine O R)).
Lemma tot_cons si O r R j : tot (si :: O) (r :: R) j =
  (if (si_base si =? j)%nat then fst r else 0) + (if (si_quote si =? j)%nat then snd r else 0) + tot O R j.
Proof. reflexivity. Qed.
Lemma reservations_nth toks ty O : forall acc M R, length acc = length toks -> reservations toks ty O acc = Some (M, R) ->
  forall j, nth j M 0 = nth j acc 0 + tot O R j.
Proof.
  induction O as [|si O IH]; intros acc M R HL; cbn [reservations].
  - intros H j. apply some_inj in H. injection H as <- <-. unfold tot. cbn [combine map]. cbn. lia.
  - destruct (nth_error toks (si_quote si)) as [q|] eqn:Eq; [|discriminate]. destruct (nth_error toks (si_base si)) as [b|] eqn:Eb; [|discriminate].
    destruct (reserved_as_base si ty q b) as [rb|]; [|discriminate]. destruct (reserved_as_quote si ty q b) as [rq|]; [|discriminate].
    destruct (reservations toks ty O _) as [[M' R']|] eqn:E; [|discriminate]. intros H j. apply some_inj in H. injection H as <- <-.
    assert (Hb : (si_base si < length toks)%nat) by (apply nth_error_Some; congruence). assert (Hq : (si_quote si < length toks)%nat) by (apply nth_error_Some; congruence).
    assert (HL' : length (add_at (add_at acc (si_base si) rb) (si_quote si) rq) = length toks) by (rewrite !add_at_length; exact HL).
    rewrite (IH _ _ _ HL' E j), tot_cons. rewrite !add_at_nth by (rewrite ?add_at_length; lia). cbn [fst snd]. lia.
Qed.
Lemma toks_ok_nth toks i t : toks_ok toks -> nth_error toks i = Some t -> token_ok t /\ haircut t /\ priced t.
Proof. intros H E. eapply Forall_forall in H; [exact H|]. eapply nth_error_In, E. Qed.
Lemma tot_nonneg toks ty O : toks_ok toks -> Forall serum_ok O -> forall acc M R, reservations toks ty O acc = Some (M, R) -> forall j, 0 <= tot O R j.
Proof.
  intros T. induction 1 as [|si O Hs _ IH]; intros acc M R; cbn [reservations].
  - intros H j. apply some_inj in H. injection H as <- <-. unfold tot. cbn. lia.
  - destruct (nth_error toks (si_quote si)) as [q|] eqn:Eq; [|discriminate]. destruct (nth_error toks (si_base si)) as [b|] eqn:Eb; [|discriminate].
    destruct (reserved_as_base si ty q b) as [rb|] eqn:E1; [|discriminate]. destruct (reserved_as_quote si ty q b) as [rq|] eqn:E2; [|discriminate].
    destruct (reservations toks ty O _) as [[M' R']|] eqn:E; [|discriminate]. intros H j. apply some_inj in H. injection H as <- <-.
    destruct (toks_ok_nth _ _ _ T Eq) as (Q1 & Q2 & Q3). destruct (toks_ok_nth _ _ _ T Eb) as (B1 & B2 & B3).
    assert (0 <= rb) by (apply (reserved_nonneg si ty q b rb); auto). assert (0 <= rq) by (apply (reserved_nonneg si ty q b rq); auto).
    specialize (IH _ _ _ E j). rewrite tot_cons. cbn [fst snd]. destruct (si_base si =? j)%nat, (si_quote si =? j)%nat; lia.
Qed.

(** every outcome of the open orders is worth at least the sum of contributions *)
Lemma outcome_upper toks ty Bal MR : toks_ok toks -> length Bal = length toks ->
  forall O, Forall serum_ok O -> forall fills acc0 M R acc, length fills = length O ->
  reservations toks ty O acc0 = Some (M, R) -> length acc = length toks ->
  (forall j, nth j acc 0 + tot O R j <= nth j Bal 0 + nth j MR 0) ->
  exists B', resolve toks ty O fills acc = Some B' /\ length B' = length toks /\
    exact_value toks ty acc + sum (map (fun sr => serum_contribution toks ty Bal MR (fst sr) (snd sr)) (combine O R)) * (fone * fone) <= exact_value toks ty B'.
Proof.
  intros T HB. induction 1 as [|si O Hs HO IH]; intros fills acc0 M R acc HF Hr HL HI; cbn [reservations] in Hr.
  - apply some_inj in Hr. injection Hr as <- <-. exists acc. cbn [resolve combine map]. split; [reflexivity|]. split; [exact HL|]. change (sum []) with 0. lia.
  - destruct (nth_error toks (si_quote si)) as [q|] eqn:Eq; [|discriminate]. destruct (nth_error toks (si_base si)) as [b|] eqn:Eb; [|discriminate].
    destruct (reserved_as_base si ty q b) as [rb|] eqn:E1; [|discriminate]. destruct (reserved_as_quote si ty q b) as [rq|] eqn:E2; [|discriminate].
    destruct (reservations toks ty O _) as [[M' R']|] eqn:E; [|discriminate]. apply some_inj in Hr. injection Hr as <- <-.
    destruct fills as [|f fills]; [cbn in HF; lia|]. cbn [length] in HF.
    destruct (toks_ok_nth _ _ _ T Eq) as (Q1 & Q2 & Q3). destruct (toks_ok_nth _ _ _ T Eb) as (B1 & B2 & B3).
    assert (Rb : 0 <= rb) by (apply (reserved_nonneg si ty q b rb); auto). assert (Rq : 0 <= rq) by (apply (reserved_nonneg si ty q b rq); auto).
    pose proof (tot_nonneg _ _ _ T HO _ _ _ E) as TN.
    assert (Lb : (si_base si < length toks)%nat) by (apply nth_error_Some; congruence). assert (Lq : (si_quote si < length toks)%nat) by (apply nth_error_Some; congruence).
    (* the chosen side *)
    set (i := if f then si_base si else si_quote si). set (r := if f then rb else rq). set (t := if f then b else q).
    assert (Et : nth_error toks i = Some t) by (unfold i, t; destruct f; assumption).
    assert (Hres : (if f then reserved_as_base si ty q b else reserved_as_quote si ty q b) = Some r) by (unfold r; destruct f; assumption).
    assert (Hr0 : 0 <= r) by (unfold r; destruct f; assumption).
    assert (Hti : token_ok t /\ haircut t) by (unfold t; destruct f; auto). assert (Li : (i < length toks)%nat) by (unfold i; destruct f; assumption).
    assert (Hgain : forall j, nth j (add_at acc i r) 0 + tot O R' j <= nth j Bal 0 + nth j MR 0).
    { intros j. rewrite add_at_nth by lia. specialize (HI j). rewrite tot_cons in HI. cbn [fst snd] in HI. unfold i, r.
      destruct f, (si_base si =? j)%nat, (si_quote si =? j)%nat; lia. }
    assert (HF' : length fills = length O) by lia. assert (HL' : length (add_at acc i r) = length toks) by (rewrite add_at_length; exact HL).
    destruct (IH fills _ _ _ (add_at acc i r) HF' E HL' Hgain) as (B' & G1 & G2 & G3).
    exists B'. split; [|split; [exact G2|]].
    + cbn [resolve]. rewrite Eq, Eb, Hres. exact G1.
    + cbn [combine map]. rewrite sum_cons. cbn [fst snd]. rewrite (exact_add_at _ _ _ _ t) in G3 by (assumption || lia).
      assert (Hc : serum_contribution toks ty Bal MR si (rb, rq) * (fone * fone) <= exact_value1 t ty (nth i acc 0 + r) - exact_value1 t ty (nth i acc 0)).
      { destruct Hti as [Ht1 Ht2]. assert (Hm : nth i acc 0 + r <= nth i Bal 0 + nth i MR 0) by (specialize (Hgain i); rewrite add_at_nth, Nat.eqb_refl in Hgain by lia; specialize (TN i); lia).
        pose proof (exact_concave t ty r _ _ Ht1 Ht2 Hr0 Hm) as CC. replace (nth i acc 0 + r - r) with (nth i acc 0) in CC by lia.
        pose proof (effect_upper t ty (nth i Bal 0) (nth i MR 0) r Ht1 Ht2 Hr0) as EU.
        unfold serum_contribution. destruct (_ || _).
        - rewrite Z.mul_0_l. pose proof (exact_mono t ty ty (nth i acc 0) (nth i acc 0 + r) (stricter_refl ty) Ht1 ltac:(lia)). lia.
        - rewrite Eb, Eq. pose proof fone_pos. eapply Z.le_trans; [|eapply Z.le_trans; [exact EU|exact CC]]. apply Z.mul_le_mono_nonneg_r; [nia|].
          unfold i, r, t. destruct f; lia. }
      lia.
Qed.
Lemma health_outcome hc ty h B fills : toks_ok (hc_tokens hc) -> Forall serum_ok (hc_serum hc) ->
  health hc ty = Some h -> balances hc ty false = Some B -> length fills = length (hc_serum hc) ->
  exists B', resolve (hc_tokens hc) ty (hc_serum hc) fills B = Some B' /\
    h * (fone * fone) <= exact_value (hc_tokens hc) ty B' + fone * borrowed B.
Proof.
  intros T HS Hh HB HF. unfold health in Hh. rewrite HB in Hh. unfold health_sum, serum_contributions in Hh.
  destruct (reservations _ _ _ _) as [[M R]|] eqn:E; [|discriminate]. apply some_inj in Hh; subst h.
  pose proof (balances_spec _ _ _ _ HB) as (HL & _).
  destruct (outcome_upper _ ty B M T HL _ HS fills _ _ _ B HF E HL) as (B' & G1 & G2 & G3).
  - intros j. rewrite (reservations_nth _ _ _ _ _ _ (zeros_length _) E j), zeros_nth. lia.
  - exists B'. split; [exact G1|]. pose proof (tokens_upper (hc_tokens hc) ty B) as TU.
    assert (Forall token_ok (hc_tokens hc)) by (eapply Forall_impl; [|exact T]; cbn; tauto). specialize (TU ltac:(assumption) HL). lia.
Qed.

(** ** markets that do not share tokens: the value of the worst outcome is attained *)
Lemma in_touched si O : In si O -> In (si_base si) (touched O) /\ In (si_quote si) (touched O).
Proof. intros H. unfold touched. split; apply in_flat_map; exists si; cbn; auto. Qed.
Lemma tot_untouched O : forall R j, ~ In j (touched O) -> tot O R j = 0.
Proof.
  induction O as [|si O IH]; intros [|r R] j H; try reflexivity. rewrite tot_cons. cbn [touched flat_map app] in H. unfold touched in IH. cbn [In] in H.
  rewrite (IH R j) by tauto. destruct (Nat.eqb_spec (si_base si) j); [tauto|]. destruct (Nat.eqb_spec (si_quote si) j); [tauto|]. lia.
Qed.
Lemma outcome_lower toks ty Bal MR : toks_ok toks -> 
  forall O, Forall serum_ok O -> forall acc0 M R acc, NoDup (touched O) ->
  reservations toks ty O acc0 = Some (M, R) -> length acc = length toks ->
  (forall j, In j (touched O) -> nth j acc 0 = nth j Bal 0 /\ nth j MR 0 = tot O R j) ->
  exists fills B', length fills = length O /\ resolve toks ty O fills acc = Some B' /\
    exact_value toks ty B' <= exact_value toks ty acc + sum (map (fun sr => serum_contribution toks ty Bal MR (fst sr) (snd sr)) (combine O R)) * (fone * fone)
      + fone * sum (map (market_slack toks ty) O).
Proof.
  intros T. induction 1 as [|si O Hs HO IH]; intros acc0 M R acc HN Hr HL HI; cbn [reservations] in Hr.
  - apply some_inj in Hr. injection Hr as <- <-. exists [], acc. cbn [resolve combine map]. split; [reflexivity|]. split; [reflexivity|]. change (sum []) with 0. lia.
  - destruct (nth_error toks (si_quote si)) as [q|] eqn:Eq; [|discriminate]. destruct (nth_error toks (si_base si)) as [b|] eqn:Eb; [|discriminate].
    destruct (reserved_as_base si ty q b) as [rb|] eqn:E1; [|discriminate]. destruct (reserved_as_quote si ty q b) as [rq|] eqn:E2; [|discriminate].
    destruct (reservations toks ty O _) as [[M' R']|] eqn:E; [|discriminate]. apply some_inj in Hr. injection Hr as <- <-.
    destruct (toks_ok_nth _ _ _ T Eq) as (Q1 & Q2 & Q3). destruct (toks_ok_nth _ _ _ T Eb) as (B1 & B2 & B3).
    assert (Rb : 0 <= rb) by (apply (reserved_nonneg si ty q b rb); auto). assert (Rq : 0 <= rq) by (apply (reserved_nonneg si ty q b rq); auto).
    assert (Lb : (si_base si < length toks)%nat) by (apply nth_error_Some; congruence). assert (Lq : (si_quote si < length toks)%nat) by (apply nth_error_Some; congruence).
    cbn [touched flat_map app] in HN. fold (touched O) in HN. inversion HN as [|? ? N1 N2]; subst. inversion N2 as [|? ? N3 N4]; subst.
    assert (NE : si_base si <> si_quote si) by (intros X; apply N1; left; congruence).
    assert (N1' : ~ In (si_base si) (touched O)) by (intros X; apply N1; right; exact X).
    destruct (HI (si_base si)) as [Hb1 Hb2]; [left; reflexivity|]. destruct (HI (si_quote si)) as [Hq1 Hq2]; [right; left; reflexivity|].
    rewrite tot_cons, (tot_untouched O R') in Hb2 by exact N1'. rewrite tot_cons, (tot_untouched O R') in Hq2 by exact N3. cbn [fst snd] in Hb2, Hq2.
    rewrite Nat.eqb_refl in Hb2, Hq2. destruct (Nat.eqb_spec (si_quote si) (si_base si)); [congruence|]. destruct (Nat.eqb_spec (si_base si) (si_quote si)); [congruence|].
    (* choose the cheaper side *)
    set (eb := health_effect b ty (nth (si_base si) Bal 0) (nth (si_base si) MR 0) rb).
    set (eq := health_effect q ty (nth (si_quote si) Bal 0) (nth (si_quote si) MR 0) rq).
    set (f := if (rb =? 0) then true else if (rq =? 0) then false else eb <=? eq).
    assert (Hf : f = if (rb =? 0) then true else if (rq =? 0) then false else eb <=? eq) by reflexivity. clearbody f.
    set (i := if f then si_base si else si_quote si). set (r := if f then rb else rq). set (t := if f then b else q).
    assert (Et : nth_error toks i = Some t) by (unfold i, t; destruct f; assumption).
    assert (Hres : (if f then reserved_as_base si ty q b else reserved_as_quote si ty q b) = Some r) by (unfold r; destruct f; assumption).
    assert (Li : (i < length acc)%nat) by (unfold i; destruct f; lia).
    assert (HL' : length (add_at acc i r) = length toks) by (rewrite add_at_length; exact HL).
    assert (HI' : forall j, In j (touched O) -> nth j (add_at acc i r) 0 = nth j Bal 0 /\ nth j MR 0 = tot O R' j).
    { intros j Hj. assert (D1 : si_base si <> j) by congruence. assert (D2 : si_quote si <> j) by congruence.
      destruct (HI j) as [X1 X2]; [right; right; exact Hj|]. rewrite tot_cons in X2. rewrite add_at_nth by exact Li.
      destruct (Nat.eqb_spec (si_base si) j); [congruence|]. destruct (Nat.eqb_spec (si_quote si) j); [congruence|].
      destruct (Nat.eqb_spec i j) as [X|]; [unfold i in X; destruct f; congruence|]. lia. }
    destruct (IH _ _ _ _ N4 E HL' HI') as (fills & B' & G0 & G1 & G2). exists (f :: fills), B'.
    split; [cbn [length]; lia|]. split; [cbn [resolve]; rewrite Eq, Eb, Hres; exact G1|].
    cbn [combine map]. rewrite !sum_cons. cbn [fst snd]. rewrite (exact_add_at _ _ _ _ t) in G2 by assumption.
    assert (MS : market_slack toks ty si = 2 * (liab_price (ti_prices q) ty + liab_price (ti_prices b) ty + fone)) by (unfold market_slack; rewrite Eq, Eb; reflexivity).
    assert (Hc : exact_value1 t ty (nth i acc 0 + r) - exact_value1 t ty (nth i acc 0) <= serum_contribution toks ty Bal MR si (rb, rq) * (fone * fone) + fone * market_slack toks ty si).
    { pose proof (effect_lower b ty (nth (si_base si) Bal 0) (nth (si_base si) MR 0) rb B1 B2 Rb) as EB.
      pose proof (effect_lower q ty (nth (si_quote si) Bal 0) (nth (si_quote si) MR 0) rq Q1 Q2 Rq) as EQ. fold eb in EB. fold eq in EQ.
      rewrite Hb2, <- Hb1 in EB. rewrite Hq2, <- Hq1 in EQ.
      replace (nth (si_base si) acc 0 + (rb + 0 + 0) - rb) with (nth (si_base si) acc 0) in EB by lia. replace (nth (si_quote si) acc 0 + (0 + rq + 0) - rq) with (nth (si_quote si) acc 0) in EQ by lia.
      replace (rb + 0 + 0) with rb in EB by lia. replace (0 + rq + 0) with rq in EQ by lia.
      pose proof (liab_price_le (ti_prices q) ty ty (stricter_refl ty) ltac:(apply Q1)) as PQ. pose proof (liab_price_le (ti_prices b) ty ty (stricter_refl ty) ltac:(apply B1)) as PB.
      rewrite MS. pose proof fone_pos as FP. set (pq := liab_price (ti_prices q) ty) in *. set (pb := liab_price (ti_prices b) ty) in *.
      assert (S0 : 0 <= fone * (2 * (pq + pb + fone))) by nia. assert (S1 : 2 * (pb + fone) * fone <= fone * (2 * (pq + pb + fone))) by nia. assert (S2 : 2 * (pq + fone) * fone <= fone * (2 * (pq + pb + fone))) by nia.
      assert (FF : 0 <= fone * fone) by nia.
      unfold serum_contribution. fold eb. fold eq. rewrite Eb, Eq. fold eb. fold eq. unfold i, r, t. clear G1 G2 HI' Et Hres Li HL' i r t. rewrite Hf. clear Hf f.
      destruct (Z.eqb_spec rb 0) as [Zb|Zb]; cbn [orb].
      - rewrite Zb, Z.add_0_r, Z.sub_diag. lia.
      - destruct (Z.eqb_spec rq 0) as [Zq|Zq].
        + rewrite Zq, Z.add_0_r, Z.sub_diag. lia.
        + clearbody eb eq. destruct (Z.leb_spec eb eq) as [C|C].
          * rewrite Z.min_l by lia. lia.
          * rewrite Z.min_r by lia. lia. }
    lia.
Qed.
Lemma reserved_le si a b q t : stricter a b -> serum_ok si -> token_ok q -> token_ok t -> priced q -> priced t ->
  (forall x y, reserved_as_base si a q t = Some x -> reserved_as_base si b q t = Some y -> x <= y) /\
  (forall x y, reserved_as_quote si a q t = Some x -> reserved_as_quote si b q t = Some y -> x <= y).
Proof.
  intros S (S1 & S2 & _ & _) Tq Tb [Q1 Q2] [B1 B2]. pose proof Tq as (_ & _ & _ & _ & Pq). pose proof Tb as (_ & _ & _ & _ & Pb).
  pose proof (asset_price_le _ _ _ S Pq) as AQ. pose proof (asset_price_le _ _ _ S Pb) as AB. pose proof (liab_price_le _ _ _ S Pq) as LQ. pose proof (liab_price_le _ _ _ S Pb) as LB.
  assert (LP : forall t, 0 < pr_oracle (ti_prices t) -> 0 < pr_stable (ti_prices t) -> 0 < liab_price (ti_prices t) b) by (intros; destruct b; cbn [liab_price]; lia).
  split; intros x y.
  - unfold reserved_as_base. destruct (div_f64 _ (liab_price (ti_prices t) a)) as [o|] eqn:E; [|discriminate]. destruct (div_f64 _ (liab_price (ti_prices t) b)) as [o'|] eqn:E'; [|discriminate].
    intros X Y. apply some_inj in X, Y. subst x y. assert (0 <= o <= o').
    { eapply div_f64_mono; [| |exact E|exact E']; [apply fmul_mono; lia|]. specialize (LP t). lia. }
    destruct (_ =? 0); lia.
  - unfold reserved_as_quote. destruct (div_f64 _ (liab_price (ti_prices q) a)) as [o|] eqn:E; [|discriminate]. destruct (div_f64 _ (liab_price (ti_prices q) b)) as [o'|] eqn:E'; [|discriminate].
    intros X Y. apply some_inj in X, Y. subst x y. assert (0 <= o <= o').
    { eapply div_f64_mono; [| |exact E|exact E']; [apply fmul_mono; lia|]. specialize (LP q). lia. }
    destruct (_ =? 0); lia.
Qed.
Lemma add_at_le A B i x y : Forall2 Z.le A B -> x <= y -> Forall2 Z.le (add_at A i x) (add_at B i y).
Proof. intros H Hx. revert i. induction H as [|a b A B Hab H IH]; intros [|i]; cbn [add_at]; constructor; try assumption; try lia. apply IH. Qed.
Lemma resolve_le toks a b : stricter a b -> toks_ok toks -> forall O, Forall serum_ok O -> forall fills A B A' B',
  resolve toks a O fills A = Some A' -> resolve toks b O fills B = Some B' -> Forall2 Z.le A B -> Forall2 Z.le A' B'.
Proof.
  intros S T. induction 1 as [|si O Hs _ IH]; intros fills A B A' B' HA HB HAB; cbn [resolve] in HA, HB.
  - apply some_inj in HA, HB. subst; assumption.
  - destruct fills as [|f fills]; [discriminate|].
    destruct (nth_error toks (si_quote si)) as [q|] eqn:Eq; [|discriminate]. destruct (nth_error toks (si_base si)) as [t|] eqn:Eb; [|discriminate].
    destruct (toks_ok_nth _ _ _ T Eq) as (Q1 & Q2 & Q3). destruct (toks_ok_nth _ _ _ T Eb) as (B1 & B2 & B3).
    destruct (reserved_le si a b q t S Hs Q1 B1 Q3 B3) as [RB RQ].
    destruct f.
    + destruct (reserved_as_base si a q t) as [x|]; [|discriminate]. destruct (reserved_as_base si b q t) as [y|]; [|discriminate].
      eapply IH; [exact HA|exact HB|]. apply add_at_le; [exact HAB|]. apply RB; reflexivity.
    + destruct (reserved_as_quote si a q t) as [x|]; [|discriminate]. destruct (reserved_as_quote si b q t) as [y|]; [|discriminate].
      eapply IH; [exact HA|exact HB|]. apply add_at_le; [exact HAB|]. apply RQ; reflexivity.
Qed.
Lemma exact_value_le toks a b A B : stricter a b -> Forall token_ok toks -> Forall2 Z.le A B -> exact_value toks a A <= exact_value toks b B.
Proof.
  intros S T H. revert A B H. induction T as [|t toks Ht _ IH]; intros A B H; [reflexivity|]. destruct H as [|x y A B Hxy H]; [reflexivity|].
  rewrite !exact_cons. pose proof (exact_mono t a b x y S Ht Hxy). specialize (IH _ _ H). lia.
Qed.
