(** Lemmas about collateral fees. *)
From Coq Require Import List ZArith Lia Bool.
From Verif Require Import OrderTree Keys PerpTypes Interest InterestFacts Bank BankFacts BankInv BankSpec BankSolvency Health HealthSpec HealthFacts HealthMore
  LiqState TokenLiq CollatFee CollatFeeSpec Fixed.
Import ListNotations.
Open Scope Z_scope.

(** ** sums *)
Lemma zsum_cons x L : zsum (x :: L) = x + zsum L. Proof. reflexivity. Qed.
Lemma combine_seq {A} (f : A * Z -> Z) (d : Z) (T : list A) : forall B, length B = length T ->
  map f (combine T B) = map (fun j => match nth_error T j with Some t => f (t, nth j B 0) | None => d end) (seq 0 (length T)).
Proof.
  induction T as [|t T IH]; intros [|b B] H; try discriminate; [reflexivity|]. cbn [combine map length seq nth_error nth]. f_equal.
  rewrite <- seq_shift, map_map. cbn [nth_error nth]. apply IH. cbn in H. lia.
Qed.
Lemma map_seq {A} (f : A -> Z) (d : Z) (T : list A) :
  map f T = map (fun j => match nth_error T j with Some t => f t | None => d end) (seq 0 (length T)).
Proof.
  induction T as [|t T IH]; [reflexivity|]. cbn [map length seq nth_error]. f_equal. rewrite <- seq_shift, map_map. cbn [nth_error]. exact IH.
Qed.
Lemma totals_spec (L : list (tinfo * fx)) : forall a l,
  fold_left (fun al tb => let h := contribution (fst tb) HMaint (snd tb) in if 0 <? h then (fst al + h, snd al) else (fst al, snd al - h)) L (a, l) =
  (a + zsum (map (fun tb => Z.max 0 (contribution (fst tb) HMaint (snd tb))) L), l + zsum (map (fun tb => Z.max 0 (- contribution (fst tb) HMaint (snd tb))) L)).
Proof.
  induction L as [|tb L IH]; intros a l; cbn [fold_left map]; [cbn [zsum fold_right]; f_equal; lia|].
  rewrite !zsum_cons. set (h := contribution (fst tb) HMaint (snd tb)). cbn zeta. destruct (Z.ltb_spec 0 h); cbn [fst snd]; rewrite IH; f_equal; lia.
Qed.
Lemma zsum_nonneg {A} (f : A -> Z) L : (forall x, 0 <= f x) -> 0 <= zsum (map f L).
Proof. intros H. induction L as [|x L IH]; cbn [map]; [cbn; lia|]. rewrite zsum_cons. specialize (H x). lia. Qed.

(** ** balances *)
Lemma serum_values_in toks O : forall al r, serum_values toks O al = Some r -> Forall (fun si => (si_base si < length toks)%nat /\ (si_quote si < length toks)%nat) O.
Proof.
  induction O as [|si O IH]; intros al r H; [constructor|]. cbn [serum_values] in H.
  destruct (nth_error toks (si_quote si)) as [q|] eqn:Q; [|discriminate]. destruct (nth_error toks (si_base si)) as [b|] eqn:B; [|discriminate].
  constructor; [|eapply IH; exact H]. split; apply nth_error_Some; congruence.
Qed.
Lemma serum_values_liab toks O : forall al r, serum_values toks O al = Some r -> snd r = snd al.
Proof.
  induction O as [|si O IH]; intros al r H; cbn [serum_values] in H; [congruence|].
  destruct (nth_error toks (si_quote si)); [|discriminate]. destruct (nth_error toks (si_base si)); [|discriminate]. apply IH in H. exact H.
Qed.
Lemma add_reserved_spec hc n : forall B, length B = n -> Forall (fun si => (si_base si < n)%nat /\ (si_quote si < n)%nat) (hc_serum hc) ->
  length (add_reserved B (hc_serum hc)) = n /\ forall j, nth j (add_reserved B (hc_serum hc)) 0 = fee_balance hc B j.
Proof.
  unfold fee_balance, add_reserved. induction (hc_serum hc) as [|si O IH]; intros B HL F; cbn [fold_left map].
  - split; [exact HL|]. intros j. cbn [zsum fold_right]. lia.
  - inversion F as [|? ? [F1 F2] F']; subst. destruct (IH (add_at (add_at B (si_base si) (si_res_base si)) (si_quote si) (si_res_quote si))) as [I1 I2];
      [rewrite !add_at_length; reflexivity|exact F'|]. split; [exact I1|]. intros j. rewrite I2, zsum_cons.
    rewrite add_at_nth by (rewrite add_at_length; exact F2). rewrite add_at_nth by exact F1. lia.
Qed.
Lemma totals_eq hc B : length B = length (hc_tokens hc) -> Forall (fun si => (si_base si < length (hc_tokens hc))%nat /\ (si_quote si < length (hc_tokens hc))%nat) (hc_serum hc) ->
  health_totals (hc_tokens hc) (add_reserved B (hc_serum hc)) = (asset_health hc B, liab_health hc B).
Proof.
  intros HL F. destruct (add_reserved_spec hc _ B HL F) as [R1 R2]. unfold health_totals. rewrite totals_spec, !Z.add_0_l. unfold asset_health, liab_health, fee_health.
  rewrite !(combine_seq _ 0) by exact R1. f_equal; f_equal; apply map_ext; intros j; cbn [fst snd]; rewrite R2; destruct (nth_error (hc_tokens hc) j); reflexivity.
Qed.

(** ** fees on collateral *)
Lemma fee_bounds bal s rate u : 0 <= bal -> 0 <= u -> 0 <= rate -> s = u / fone ->
  let f := fmul (fmul bal s) rate in
  0 <= f /\ f * (fone * fone * fone) <= bal * u * rate < f * (fone * fone * fone) + bal * rate * fone + rate * (fone * fone) + fone * fone * fone.
Proof.
  intros Hb Hu Hr ->. cbv zeta. pose proof fone_pos as FP. pose proof (Z.div_mod u fone ltac:(lia)) as D. pose proof (Z.mod_pos_bound u fone FP) as M.
  set (s := u / fone) in *. set (m := u mod fone) in *. assert (S0 : 0 <= s) by (apply Z.div_pos; lia).
  pose proof (fmul_bounds bal s) as [B1 B2]. pose proof (fmul_nonneg bal s Hb S0) as B0. set (x := fmul bal s) in *.
  pose proof (fmul_bounds x rate) as [C1 C2]. pose proof (fmul_nonneg x rate B0 Hr) as C0. set (f := fmul x rate) in *. clearbody x f s m.
  split; [exact C0|]. rewrite D. clear D u Hu.
  assert (E1 : x * fone * rate <= bal * s * rate) by (apply Z.mul_le_mono_nonneg_r; lia).
  assert (E2 : bal * s * rate <= (x * fone + fone) * rate) by (apply Z.mul_le_mono_nonneg_r; lia).
  assert (E3 : 0 <= bal * rate) by (apply Z.mul_nonneg_nonneg; lia). set (br := bal * rate) in *.
  replace (bal * (fone * s + m) * rate) with (fone * (bal * s * rate) + m * br) by (unfold br; ring). set (y := bal * s * rate) in *. clearbody y br.
  assert (E4 : 0 <= m * br <= (fone - 1) * br) by (split; [apply Z.mul_nonneg_nonneg; lia|apply Z.mul_le_mono_nonneg_r; lia]).
  assert (E5 : f * fone * fone * fone <= y * fone).
  { apply Z.mul_le_mono_nonneg_r; [lia|]. apply Z.le_trans with (x * rate * fone); [apply Z.mul_le_mono_nonneg_r; lia|lia]. }
  assert (E6 : y * fone <= (f * fone * fone + fone * fone - fone + rate * fone) * fone) by (apply Z.mul_le_mono_nonneg_r; nia).
  split; [nia|]. assert (0 < fone * fone) by nia. nia.
Qed.
Lemma coll_spec hc B B0 scaling secs E : (forall j, nth j B 0 = fee_balance hc B0 j) -> 0 <= usage hc B0 * (secs * INV_DAY) -> scaling = (usage hc B0 * (secs * INV_DAY)) / fone ->
  forall F usd, collateral_fees hc B scaling E = Some (F, usd) ->
  length F = length E /\ (forall k e, nth_error E k = Some e -> exists f, nth_error F k = Some f /\ coll_ok hc B0 secs e f) /\
  (Forall (fun e => token_pos (hc_tokens hc) (ce_idx e) <> None) E ->
   usd = zsum (map (fun ef => fmul (snd ef) (entry_price hc (fst ef))) (combine E F))).
Proof.
  intros HB HU HS. induction E as [|e E IH]; intros F usd H; cbn [collateral_fees] in H.
  - apply some_inj in H. apply pair_equal_spec in H as [<- <-]. split; [reflexivity|]. split; [intros [|k] e Hk; discriminate|reflexivity].
  - match type of H with match ?x with _ => _ end = _ => destruct x as [[fee u]|] eqn:X; [|discriminate] end.
    destruct (collateral_fees hc B scaling E) as [[F' tot]|] eqn:R; [|discriminate]. apply some_inj in H. apply pair_equal_spec in H as [<- <-].
    destruct (IH _ _ eq_refl) as (I1 & I2 & I3). split; [cbn [length]; lia|].
    assert (K : coll_ok hc B0 secs e fee /\ (token_pos (hc_tokens hc) (ce_idx e) <> None -> u = fmul fee (entry_price hc e))).
    { destruct ((ce_rate e <=? 0) || (ce_aw e =? 0)) eqn:C.
      - apply some_inj in X. apply pair_equal_spec in X as [<- <-]. split; [|intros _; rewrite fmul_0_l; reflexivity].
        apply orb_prop in C. constructor; [reflexivity|]. intros j t _ _ R1 R2. destruct C as [C|C]; [apply Z.leb_le in C; lia|apply Z.eqb_eq in C; lia].
      - apply orb_false_iff in C as [C1 C2]. apply Z.leb_gt in C1. apply Z.eqb_neq in C2.
        destruct (token_pos (hc_tokens hc) (ce_idx e)) as [i|] eqn:P; [|discriminate]. rewrite HB in X.
        destruct (Z.leb_spec (fee_balance hc B0 i) 0) as [Z0|Z0].
        + apply some_inj in X. apply pair_equal_spec in X as [<- <-]. split; [|intros _; rewrite fmul_0_l; reflexivity].
          constructor; [reflexivity|]. intros j t Hj _ _ _ R3. rewrite P in Hj. apply HealthFacts.some_inj in Hj. subst j. lia.
        + match type of X with match guard ?g with _ => _ end = _ => destruct g eqn:G; cbn [guard] in X; [|discriminate] end. apply Z.leb_le in G.
          destruct (nth_error (hc_tokens hc) i) as [t|] eqn:T; [|discriminate]. apply some_inj in X. apply pair_equal_spec in X as [<- <-].
          split; [|intros _; unfold entry_price; rewrite P, T; reflexivity].
          pose proof (fee_bounds (fee_balance hc B0 i) scaling (ce_rate e) _ ltac:(lia) HU ltac:(lia) HS) as FB. cbv zeta in FB.
          constructor.
          * intros j t' Hj _ [R1|[R1|R1]]; [lia|contradiction|]. rewrite P in Hj. apply some_inj in Hj. subst j. lia.
          * intros j t' Hj _ _ _ _. rewrite P in Hj. apply some_inj in Hj. subst j. destruct FB as [F1 F2]. split; [split; [exact F1|exact G]|exact F2]. }
    destruct K as [K1 K2]. split.
    + intros [|k] e' Hk; cbn [nth_error] in *; [apply some_inj in Hk; subst e'; eauto|]. apply I2. exact Hk.
    + intros HF. inversion HF as [|? ? HF1 HF2]; subst. cbn [combine map fst snd]. rewrite zsum_cons, <- (I3 HF2), (K2 HF1). reflexivity.
Qed.

(** ** what is paid *)
Lemma share_bounds h L usd p : h < 0 -> 0 < L -> 0 < p -> 0 <= usd ->
  let f := fdiv (fmul (Z.abs (fdiv h L)) usd) p in
  0 <= f /\ f * p * L <= - h * usd * fone < f * p * L + L * (usd + fone + p).
Proof.
  intros Hh HL Hp Hu. cbv zeta. pose proof fone_pos as FP.
  assert (EH : h = - (- h)) by lia. set (k := - h) in *. clearbody k. subst h. rewrite fdiv_opp_l, Z.abs_opp. assert (Hk : 0 < k) by lia.
  pose proof (fdiv_nonneg k L ltac:(lia) HL) as S0. rewrite Z.abs_eq by exact S0. pose proof (Fixed.fdiv_pos_bounds k L ltac:(lia) HL) as [S1 S2].
  set (sh := fdiv k L) in *. pose proof (fmul_nonneg sh usd S0 Hu) as Y0. pose proof (fmul_bounds sh usd) as [Y1 Y2]. set (y := fmul sh usd) in *.
  pose proof (fdiv_nonneg y p Y0 Hp) as F0. pose proof (Fixed.fdiv_pos_bounds y p Y0 Hp) as [F1 F2]. set (f := fdiv y p) in *. clearbody f y sh.
  split; [exact F0|].
  assert (A1 : f * p * L <= y * fone * L) by (apply Z.mul_le_mono_nonneg_r; lia).
  assert (A2 : y * fone * L <= sh * usd * L) by (apply Z.mul_le_mono_nonneg_r; lia).
  assert (A3 : sh * L * usd <= k * fone * usd) by (apply Z.mul_le_mono_nonneg_r; lia).
  assert (A4 : k * fone * usd <= (sh * L + L) * usd) by (apply Z.mul_le_mono_nonneg_r; lia).
  assert (A5 : sh * usd * L < (y * fone + fone) * L) by (apply Z.mul_lt_mono_pos_r; lia).
  assert (A6 : y * fone * L < (f * p + p) * L) by (apply Z.mul_lt_mono_pos_r; lia).
  split; lia.
Qed.
Lemma borrows_spec hc B B0 usd now E : (forall j, nth j B 0 = fee_balance hc B0 j) -> 0 < liab_health hc B0 ->
  forall R F, charge_borrows hc B (liab_health hc B0) usd now E = Some (R, F) ->
  length R = length E /\ length F = length E /\
  forall k e, nth_error E k = Some e -> exists e' f, nth_error R k = Some e' /\ nth_error F k = Some f /\ paid_ok hc B0 usd e e' f.
Proof.
  intros HB HL. induction E as [|e E IH]; intros R F H; cbn [charge_borrows] in H.
  - apply some_inj in H. apply pair_equal_spec in H as [<- <-]. split; [reflexivity|]. split; [reflexivity|]. intros [|k] e Hk; discriminate.
  - destruct (token_pos (hc_tokens hc) (ce_idx e)) as [i|] eqn:P; [|discriminate]. destruct (nth_error (hc_tokens hc) i) as [t|] eqn:T; [|discriminate]. rewrite HB in H.
    assert (FH : fee_health hc B0 i = contribution t HMaint (fee_balance hc B0 i)) by (unfold fee_health; rewrite T; reflexivity). rewrite <- FH in H.
    match type of H with match ?x with _ => _ end = _ => destruct x as [[e' fee]|] eqn:X; [|discriminate] end.
    destruct (charge_borrows hc B (liab_health hc B0) usd now E) as [[R' F']|] eqn:Q; [|discriminate]. apply some_inj in H. apply pair_equal_spec in H as [<- <-].
    destruct (IH _ _ eq_refl) as (I1 & I2 & I3). split; [cbn [length]; lia|]. split; [cbn [length]; lia|].
    intros [|k] e0 Hk; cbn [nth_error] in *; [|apply I3; exact Hk]. apply some_inj in Hk. subst e0. exists e', fee. split; [reflexivity|]. split; [reflexivity|].
    set (hh := fee_health hc B0 i) in *. destruct (Z.leb_spec 0 hh) as [H0|H0].
    + apply some_inj in X. apply pair_equal_spec in X as [<- <-]. split; [|auto]. exists i, t. split; [exact P|]. split; [exact T|]. fold hh.
      split; [auto|]. split; intros HX; lia.
    + destruct (cdiv hh (liab_health hc B0)) as [sh|] eqn:C1; [|discriminate]. apply cdiv_inv in C1 as [-> _].
      match type of X with match ?x with _ => _ end = _ => destruct x as [ff|] eqn:C2; [|discriminate] end. apply cdiv_inv in C2 as [C2 _].
      destruct (withdraw_without_fee _ _ _ _) as [[[b p] act]|] eqn:W; [|discriminate]. destruct act; cbn [guard] in X; [|discriminate].
      apply some_inj in X. apply pair_equal_spec in X as [<- <-]. split; [|cbn; auto]. exists i, t. split; [exact P|]. split; [exact T|]. fold hh.
      split; [intros; lia|]. split.
      * intros _ Hp Hu. cbv zeta. rewrite C2. apply share_bounds; assumption.
      * intros _ Hd Hb Hl. unfold withdraw_without_fee in W. destruct (withdraw_internal _ _ _ _ _ _) as [[[b1 p1] r1]|] eqn:WI; [|discriminate].
        apply some_inj in W. apply pair_equal_spec in W as [W W3]. apply pair_equal_spec in W as [<- <-].
        apply withdraw_spec in WI; [|split; assumption|exact Hl]. destruct WI as (W0 & M & _ & _ & Wf & W1 & _ & Wd & _ & A & A' & _). cbn [andb] in W1.
        specialize (Wd W3). rewrite W1 in *. cbn [ce_bank ce_pos set_totals b_fees b_dust]. split; [exact W0|]. split; [lia|].
        split. { destruct M. unfold bank_moved1. cbn [set_totals b_dep b_bor b_di b_bi b_fw]. tauto. }
        split; [exact Wd|]. rewrite Wd in A, A'. unfold claim1. cbn [set_totals b_di b_bi]. rewrite (mv_di _ _ _ _ M), (mv_bi _ _ _ _ M).
        rewrite !BankSolvency.pv_worth in A, A'. lia.
Qed.

(** ** the whole instruction *)
Lemma usage_nonneg hc B : 0 < asset_health hc B -> 0 <= liab_health hc B -> 0 <= usage hc B <= fone.
Proof. intros A L. unfold usage. pose proof fone_pos as FP. pose proof (Z.div_pos (liab_health hc B * fone) (asset_health hc B) ltac:(nia) A). lia. Qed.
Record charged (interval now last : Z) (hc : cache) (E : list centry) (o : cout) : Prop := {
  cg_due : interval <> 0 /\ last <> 0 /\ last + interval <= now;
  cg_last : co_last o = now;
  cg_secs : co_secs o = Z.min (now - last) (2 * interval);
  cg_liabs : exists a l, equity_parts hc = Some (a, l) /\ MIN_LIABS <= l;
  cg_fees : exists B, balances hc HMaint false = Some B /\ 0 < asset_health hc B /\ 0 < liab_health hc B /\
    length (co_coll o) = length E /\ length (co_entries o) = length E /\ length (co_paid o) = length E /\
    (0 <= co_secs o -> forall k e, nth_error E k = Some e -> exists f, nth_error (co_coll o) k = Some f /\ coll_ok hc B (co_secs o) e f) /\
    (0 <= co_secs o -> co_usd o = zsum (map (fun ef => fmul (snd ef) (entry_price hc (fst ef))) (combine E (co_coll o)))) /\
    (forall k e, nth_error E k = Some e -> exists e' f, nth_error (co_entries o) k = Some e' /\ nth_error (co_paid o) k = Some f /\ paid_ok hc B (co_usd o) e e' f) }.
Lemma charge_inv interval now last hc E o : charge_collateral_fees interval now last hc E = Some o ->
  (interval = 0 /\ o = no_charge 0 E) \/ (interval <> 0 /\ last = 0 /\ o = no_charge now E) \/
  (interval <> 0 /\ last <> 0 /\ now < last + interval /\ o = no_charge last E) \/
  (interval <> 0 /\ last <> 0 /\ last + interval <= now /\ o = no_charge now E) \/ charged interval now last hc E o.
Proof.
  unfold charge_collateral_fees. destruct (Z.eqb_spec interval 0) as [->|NI]; [intros H; apply some_inj in H; auto|].
  destruct (Z.eqb_spec last 0) as [->|NL]; [intros H; apply some_inj in H; auto|].
  destruct (guard (last + interval <? 2 ^ 64)); [|discriminate]. destruct (Z.ltb_spec now (last + interval)) as [D|D]; [intros H; apply some_inj in H; right; right; left; auto|].
  destruct (guard (2 * interval <? 2 ^ 64)); [|discriminate]. destruct (equity_parts hc) as [[ea el]|] eqn:EP; [|discriminate].
  destruct (Z.ltb_spec el MIN_LIABS) as [SM|SM]; [intros H; apply some_inj in H; right; right; right; left; auto|].
  destruct (balances hc HMaint false) as [B|] eqn:EB; [|discriminate]. pose proof (balances_spec _ _ _ _ EB) as (BL & _ & _).
  assert (SI : Forall (fun si => (si_base si < length (hc_tokens hc))%nat /\ (si_quote si < length (hc_tokens hc))%nat) (hc_serum hc)).
  { unfold equity_parts in EP. destruct (serum_values _ _ _) as [al|] eqn:SV; [|discriminate]. eapply serum_values_in; exact SV. }
  rewrite (totals_eq hc B BL SI). destruct (add_reserved_spec hc _ B BL SI) as [_ RB].
  assert (A0 : 0 <= asset_health hc B) by (apply zsum_nonneg; intros; lia). assert (L0 : 0 <= liab_health hc B) by (apply zsum_nonneg; intros; lia).
  destruct (Z.eqb_spec (asset_health hc B) 0) as [AZ|AZ]; cbn [orb]; [intros H; apply some_inj in H; right; right; right; left; auto|].
  destruct (Z.eqb_spec (liab_health hc B) 0) as [LZ|LZ]; cbn [orb]; [intros H; apply some_inj in H; right; right; right; left; auto|].
  destruct (cdiv _ _) as [ratio|] eqn:CR; [|discriminate]. apply cdiv_inv in CR as [CR _].
  assert (UE : Z.min (Z.max ratio 0) fone = usage hc B).
  { unfold usage. rewrite CR. unfold fdiv. rewrite Z.quot_div_nonneg by (pose proof fone_pos; nia).
    pose proof (Z.div_pos (liab_health hc B * fone) (asset_health hc B) ltac:(pose proof fone_pos; nia) ltac:(lia)). lia. }
  rewrite UE. set (secs := Z.min (now - last) (2 * interval)).
  destruct (collateral_fees _ _ _ _) as [[F usd]|] eqn:CF; [|discriminate]. destruct (charge_borrows _ _ _ _ _ _) as [[R P]|] eqn:CB; [|discriminate].
  intros H. apply some_inj in H. right. right. right. right. subst o.
  apply (borrows_spec hc _ B usd now E RB ltac:(lia)) in CB as (B1 & B2 & B3).
  constructor; cbn [co_last co_secs co_coll co_usd co_entries co_paid]; [auto|reflexivity|reflexivity|eauto|].
  exists B. split; [exact EB|]. split; [lia|]. split; [lia|].
  pose proof (usage_nonneg hc B ltac:(lia) L0) as [U0 _].
  assert (TS : fmul (of_int secs) INV_DAY = secs * INV_DAY) by apply fmul_int_l. rewrite TS in CF.
  assert (FL : length F = length E).
  { clear - CF. revert F usd CF. generalize (fmul (usage hc B) (secs * INV_DAY)) as sc. intros sc. induction E as [|e E IH]; intros F usd H; cbn [collateral_fees] in H; [apply some_inj in H; apply pair_equal_spec in H as [<- <-]; reflexivity|].
    match type of H with match ?x with _ => _ end = _ => destruct x as [[fee u]|]; [|discriminate] end.
    destruct (collateral_fees hc _ _ E) as [[F' tot]|] eqn:R; [|discriminate]. apply some_inj in H. apply pair_equal_spec in H as [<- <-]. cbn [length]. f_equal. eapply IH; reflexivity. }
  split; [exact FL|]. split; [exact B1|]. split; [exact B2|].
  assert (S : 0 <= secs -> length F = length E /\ (forall k e, nth_error E k = Some e -> exists f, nth_error F k = Some f /\ coll_ok hc B secs e f) /\
    (Forall (fun e => token_pos (hc_tokens hc) (ce_idx e) <> None) E -> usd = zsum (map (fun ef => fmul (snd ef) (entry_price hc (fst ef))) (combine E F)))).
  { intros HS. refine (coll_spec hc _ B _ secs E RB _ _ F usd CF); [apply Z.mul_nonneg_nonneg; [exact U0|]; unfold INV_DAY; lia|reflexivity]. }
  split; [intros HS; apply (S HS)|]. split; [|exact B3].
  intros HS. apply (S HS). apply Forall_forall. intros e Hin. apply In_nth_error in Hin as [k Hk]. destruct (B3 k e Hk) as (e' & f & _ & _ & [(j & t & PJ & _) _]). congruence.
Qed.

(** ** total *)
Lemma zsum_mul {A} (f : A -> Z) c L : zsum (map f L) * c = zsum (map (fun x => f x * c) L).
Proof. induction L as [|x L IH]; cbn [map]; [reflexivity|]. rewrite !zsum_cons. lia. Qed.
Lemma zsum_le {A} (f g : A -> Z) L : (forall x, In x L -> f x <= g x) -> zsum (map f L) <= zsum (map g L).
Proof. induction L as [|x L IH]; intros H; cbn [map]; [reflexivity|]. rewrite !zsum_cons. specialize (IH (fun y Hy => H y (or_intror Hy))). specialize (H x (or_introl eq_refl)). lia. Qed.
Lemma zsum_add {A} (f g : A -> Z) L : zsum (map (fun x => f x + g x) L) = zsum (map f L) + zsum (map g L).
Proof. induction L as [|x L IH]; cbn [map]; [reflexivity|]. rewrite !zsum_cons. lia. Qed.
Lemma pos_aligned toks : NoDup (map ti_index toks) -> forall j t, nth_error toks j = Some t -> token_pos toks (ti_index t) = Some j.
Proof.
  induction toks as [|x toks IH]; intros N j t H; [destruct j; discriminate|]. inversion N as [|? ? N1 N2]; subst. cbn [token_pos].
  destruct j as [|j]; cbn [nth_error] in H; [apply some_inj in H; subst; rewrite Z.eqb_refl; reflexivity|].
  destruct (Z.eqb_spec (ti_index x) (ti_index t)) as [E|_]; [|rewrite (IH N2 _ _ H); reflexivity].
  exfalso. apply N1. rewrite E. apply in_map. eapply nth_error_In. exact H.
Qed.
Lemma total_spec hc B usd E R P : NoDup (map ti_index (hc_tokens hc)) -> map ce_idx E = map ti_index (hc_tokens hc) ->
  Forall (fun t => 0 < price t) (hc_tokens hc) -> 0 <= usd -> 0 < liab_health hc B -> length P = length E ->
  (forall k e, nth_error E k = Some e -> exists e' f, nth_error R k = Some e' /\ nth_error P k = Some f /\ paid_ok hc B usd e e' f) ->
  zsum (map (fun ef => snd ef * entry_price hc (fst ef)) (combine E P)) <= usd * fone /\
  usd * fone <= zsum (map (fun ef => snd ef * entry_price hc (fst ef)) (combine E P)) + zsum (map (fun t => usd + fone + price t) (hc_tokens hc)).
Proof.
  intros ND AL PR U0 L0 PL H. assert (LN : length E = length (hc_tokens hc)) by (rewrite <- (map_length ce_idx), AL, map_length; reflexivity).
  rewrite (combine_seq _ 0 E P PL). set (g := fun j => _).
  assert (TT : zsum (map (fun t => usd + fone + price t) (hc_tokens hc)) = zsum (map (fun j => match nth_error (hc_tokens hc) j with Some t => usd + fone + price t | None => 0 end) (seq 0 (length E)))).
  { rewrite LN, <- (map_seq (fun t => usd + fone + price t) 0). reflexivity. }
  rewrite TT. clear TT. set (q := fun j => match nth_error (hc_tokens hc) j with Some t => usd + fone + price t | None => 0 end).
  assert (K : forall j, In j (seq 0 (length E)) -> let h := Z.max 0 (- fee_health hc B j) in
    g j * liab_health hc B <= h * (usd * fone) /\ h * (usd * fone) <= g j * liab_health hc B + q j * liab_health hc B).
  { intros j Hj. apply in_seq in Hj as [_ Hj]. cbn in Hj. destruct (nth_error E j) as [e|] eqn:EE; [|apply nth_error_None in EE; lia].
    destruct (nth_error (hc_tokens hc) j) as [t|] eqn:ET; [|apply nth_error_None in ET; lia].
    assert (IX : ce_idx e = ti_index t). { pose proof (map_nth_error ce_idx j E EE) as M1. pose proof (map_nth_error ti_index j _ ET) as M2. rewrite AL in M1. congruence. }
    destruct (H j e EE) as (e' & f & _ & HP & [(j' & t' & PJ & TJ & Z1 & Z2 & _) _]). rewrite IX, (pos_aligned _ ND _ _ ET) in PJ. apply some_inj in PJ. subst j'.
    rewrite ET in TJ. apply some_inj in TJ. subst t'. assert (GJ : g j = f * price t).
    { unfold g. rewrite EE. cbn [fst snd]. unfold entry_price. rewrite IX, (pos_aligned _ ND _ _ ET), ET. rewrite (nth_error_nth _ _ _ HP). reflexivity. }
    assert (QJ : q j = usd + fone + price t) by (unfold q; rewrite ET; reflexivity). rewrite GJ, QJ.
    assert (PT : 0 < price t) by (rewrite Forall_forall in PR; apply PR; eapply nth_error_In; exact ET). pose proof fone_pos as FP. cbv zeta.
    destruct (Z_lt_le_dec (fee_health hc B j) 0) as [N|N].
    - destruct (Z2 N PT U0) as (_ & Y1 & Y2). rewrite Z.max_r by lia. cbv zeta in *. split; lia.
    - destruct (Z1 N) as [_ ->]. rewrite Z.max_l by lia. nia. }
  assert (LU : usd * fone * liab_health hc B = zsum (map (fun j => Z.max 0 (- fee_health hc B j) * (usd * fone)) (seq 0 (length E)))) by (rewrite LN, <- zsum_mul; unfold liab_health; lia).
  assert (LH : liab_health hc B = zsum (map (fun j => Z.max 0 (- fee_health hc B j)) (seq 0 (length E)))) by (rewrite LN; reflexivity).
  assert (S1 : zsum (map g (seq 0 (length E))) * liab_health hc B <= usd * fone * liab_health hc B).
  { rewrite LU, zsum_mul. apply zsum_le. intros j Hj. apply (K j Hj). }
  assert (S2 : usd * fone * liab_health hc B <= (zsum (map g (seq 0 (length E))) + zsum (map q (seq 0 (length E)))) * liab_health hc B).
  { rewrite LU, Z.mul_add_distr_r, !zsum_mul, <- zsum_add. apply zsum_le. intros j Hj. apply (K j Hj). }
  split; [apply (Z.mul_le_mono_pos_r _ _ (liab_health hc B) L0); exact S1|apply (Z.mul_le_mono_pos_r _ _ (liab_health hc B) L0); exact S2].
Qed.

(** ** unweighted debts *)
Lemma find_aligned toks : NoDup (map ti_index toks) -> forall j t, nth_error toks j = Some t -> find (fun x => ti_index x =? ti_index t) toks = Some t.
Proof.
  induction toks as [|x toks IH]; intros N j t H; [destruct j; discriminate|]. inversion N as [|? ? N1 N2]; subst. cbn [find].
  destruct j as [|j]; cbn [nth_error] in H; [apply some_inj in H; subst; rewrite Z.eqb_refl; reflexivity|].
  destruct (Z.eqb_spec (ti_index x) (ti_index t)) as [E|_]; [|eapply IH; eassumption]. exfalso. apply N1. rewrite E. apply in_map. eapply nth_error_In. exact H.
Qed.
Lemma add_value_debt al x p : 0 <= p -> snd (add_value al (x <? 0) (fmul x p)) = snd al + debt (fmul x p).
Proof.
  intros Hp. unfold add_value, debt. destruct (Z.ltb_spec x 0); cbn [snd].
  - pose proof (HealthFacts.fmul_nonpos x p ltac:(lia) Hp). lia.
  - pose proof (fmul_nonneg x p ltac:(lia) Hp). lia.
Qed.
Lemma spot_debts toks : Forall (fun t => 0 <= price t) toks -> forall al,
  snd (fold_left (fun al t => add_value al (ti_spot t <? 0) (fmul (ti_spot t) (pr_oracle (ti_prices t)))) toks al) =
  snd al + zsum (map (fun t => debt (fmul (ti_spot t) (price t))) toks).
Proof.
  induction 1 as [|t toks Ht _ IH]; intros al; cbn [fold_left map]; [cbn [zsum fold_right]; lia|]. rewrite IH, zsum_cons, add_value_debt by exact Ht. unfold price. lia.
Qed.
Lemma perp_debts hc P : NoDup (map ti_index (hc_tokens hc)) -> Forall (fun t => 0 <= price t) (hc_tokens hc) ->
  Forall (fun pi => exists t, is_token hc (pi_settle pi) (Z.to_nat (pi_settle pi)) t) P -> forall al r, perp_values (hc_tokens hc) P al = Some r ->
  snd r = snd al + zsum (map (fun pi => debt (fmul (pi_quote pi) (settle_price hc (pi_settle pi))) +
    debt (fmul (fmul (of_int (pi_base pi * pi_lot pi)) (pr_oracle (pi_prices pi))) (settle_price hc (pi_settle pi)))) P).
Proof.
  intros ND PR. induction 1 as [|pi P (t & T1 & T2) _ IH]; intros al r H; cbn [perp_values map] in *; [apply some_inj in H; subst; cbn [zsum fold_right]; lia|].
  rewrite T1 in H. apply IH in H. rewrite H, zsum_cons. unfold perp_value.
  assert (SP : settle_price hc (pi_settle pi) = price t) by (unfold settle_price; rewrite <- T2, (find_aligned _ ND _ _ T1); reflexivity). rewrite SP.
  assert (0 <= price t) by (rewrite Forall_forall in PR; apply PR; eapply nth_error_In; exact T1). unfold price in *.
  set (v := fmul (fmul (of_int (pi_base pi * pi_lot pi)) (pr_oracle (pi_prices pi))) (pr_oracle (ti_prices t))).
  assert (V : forall al, snd (add_value al (v <? 0) v) = snd al + debt v) by (intros a; unfold add_value, debt; destruct (Z.ltb_spec v 0); cbn [snd]; lia).
  rewrite V, add_value_debt by assumption. lia.
Qed.
Lemma equity_liabs hc a l : NoDup (map ti_index (hc_tokens hc)) -> Forall (fun t => 0 <= price t) (hc_tokens hc) -> settle_in_place hc ->
  equity_parts hc = Some (a, l) -> l = true_liabs hc.
Proof.
  intros ND PR SP H. unfold equity_parts in H. destruct (serum_values _ _ _) as [al|] eqn:SV; [|discriminate]. apply serum_values_liab in SV.
  apply (perp_debts hc _ ND PR SP) in H. cbn [snd] in H. unfold true_liabs. rewrite H, SV. unfold spot_values. rewrite spot_debts by exact PR. cbn [snd]. lia.
Qed.
