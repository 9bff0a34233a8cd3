(** C73: collateral fees. *)
From Coq Require Import List ZArith Lia Bool.
From Verif Require Import OrderTree Keys PerpTypes Interest InterestFacts Bank BankFacts BankSpec Health HealthFacts TokenLiq LiqState
  CollatFee CollatFeeSpec CollatFeeFacts PropBank PropTokenLiq Fixed.
Import ListNotations.
Open Scope Z_scope.

Lemma charge_cases interval now last hc E o : 0 <= last <= now -> 0 <= interval -> charge_collateral_fees interval now last hc E = Some o ->
  (co_secs o = 0 /\ co_entries o = E /\
   co_last o = (if interval =? 0 then 0 else if last =? 0 then now else if now <? last + interval then last else now)) \/
  charged interval now last hc E o.
Proof.
  intros Hl Hi H. apply charge_inv in H as [[-> ->]|[(N & -> & ->)|[(N & M & D & ->)|[(N & M & D & ->)|C]]]]; [..|right; exact C]; left; cbn [no_charge co_secs co_entries co_last];
  (split; [reflexivity|]; split; [reflexivity|]).
  - reflexivity.
  - destruct (Z.eqb_spec interval 0); [contradiction|reflexivity].
  - destruct (Z.eqb_spec interval 0); [contradiction|]. destruct (Z.eqb_spec last 0); [contradiction|]. destruct (Z.ltb_spec now (last + interval)); [reflexivity|lia].
  - destruct (Z.eqb_spec interval 0); [contradiction|]. destruct (Z.eqb_spec last 0); [contradiction|]. destruct (Z.ltb_spec now (last + interval)); [lia|reflexivity].
Qed.
Lemma charged_secs interval now last hc E o : 0 <= last <= now -> 0 <= interval -> charged interval now last hc E o -> 0 < co_secs o.
Proof. intros Hl Hi C. destruct (cg_due _ _ _ _ _ _ C) as (A & B & D). rewrite (cg_secs _ _ _ _ _ _ C). lia. Qed.

(** When fees are charged, and for how long: never while the interval of the group is zero or before a first call has set the
    account's time stamp, never before a whole interval has passed since the time stamp; then for the time since then, at most
    two intervals.  The time stamp: back to zero while the fees are off, else it is set to the time of the first call and of each
    call that was due, also when nothing was charged. *)
Theorem C73_schedule interval now last hc E o : 0 <= last <= now -> 0 <= interval ->
  charge_collateral_fees interval now last hc E = Some o ->
  (interval = 0 -> co_last o = 0) /\
  (interval <> 0 -> last = 0 -> co_last o = now) /\
  (interval <> 0 -> last <> 0 -> now < last + interval -> co_last o = last) /\
  (interval <> 0 -> last <> 0 -> last + interval <= now -> co_last o = now) /\
  (co_secs o = 0 \/ interval <> 0 /\ last <> 0 /\ last + interval <= now /\ co_secs o = Z.min (now - last) (2 * interval)) /\
  (co_secs o = 0 -> co_entries o = E).
Proof.
  intros Hl Hi H. apply charge_cases in H as [(A & B & ->)|C]; [|..|assumption|assumption].
  - rewrite A, B. destruct (Z.eqb_spec interval 0); [do 5 (split; [intros; tauto|]); auto|]. destruct (Z.eqb_spec last 0); [do 5 (split; [intros; tauto|]); auto|].
    destruct (Z.ltb_spec now (last + interval)); (split; [intros; lia|]; split; [intros; lia|]; split; [intros; lia|]; split; [intros; lia|]; auto).
  - pose proof (charged_secs _ _ _ _ _ _ Hl Hi C) as S. destruct (cg_due _ _ _ _ _ _ C) as (D1 & D2 & D3). rewrite (cg_last _ _ _ _ _ _ C).
    split; [intros; lia|]. split; [reflexivity|]. split; [intros; lia|]. split; [reflexivity|]. split; [|lia].
    right. do 3 (split; [assumption|]). apply (cg_secs _ _ _ _ _ _ C).
Qed.
Print Assumptions C73_schedule.

(** any sequence of successful calls for one account, at times that do not decrease; between two calls the interval, prices, positions
    and banks may change in any way.  From time stamp [l] at time [t]; the list: the interval and the seconds charged for, per call. *)
Inductive fee_run : Z -> Z -> list (Z * Z) -> Z -> Z -> Prop :=
| fr_done l t : fee_run l t [] l t
| fr_call l t interval now hc E o S l1 t1 : t <= now -> 0 <= interval -> charge_collateral_fees interval now l hc E = Some o ->
    fee_run (co_last o) now S l1 t1 -> fee_run l t ((interval, co_secs o) :: S) l1 t1.

(** No second is charged for twice: in every such history the seconds charged for add up to no more than the time passed since the
    time stamp (since the start when there was none), and every charge takes up at least an interval of this time. *)
Theorem C73_history l t S l1 t1 : 0 <= l <= t -> fee_run l t S l1 t1 ->
  let start := if l =? 0 then t else l in
  0 <= zsum (map snd S) <= t1 - start /\
  Forall (fun c => 0 <= snd c <= 2 * fst c) S /\
  zsum (map (fun c => if snd c =? 0 then 0 else fst c) S) <= t1 - start.
Proof.
  intros Hl R. cbv zeta.
  assert (G : 0 <= l1 <= t1 /\ 0 <= zsum (map snd S) <= (if l1 =? 0 then t1 else l1) - (if l =? 0 then t else l) /\ Forall (fun c => 0 <= snd c <= 2 * fst c) S /\
    zsum (map (fun c => if snd c =? 0 then 0 else fst c) S) <= (if l1 =? 0 then t1 else l1) - (if l =? 0 then t else l)).
  { revert Hl. induction R as [l t|l t iv now hc E o S l1 t1 Ht Hi H R IH]; intros Hl.
    - cbn [map zsum fold_right]. split; [exact Hl|]. split; [lia|]. split; [constructor|lia].
    - apply charge_cases in H; [|lia|lia]. cbn [map fst snd]. rewrite !zsum_cons. destruct H as [(A & _ & B)|C].
      + assert (LB : 0 <= co_last o <= now) by (rewrite B; destruct (iv =? 0); [lia|]; destruct (l =? 0); [lia|]; destruct (now <? l + iv); lia).
        destruct (IH LB) as (I1 & I2 & I3 & I4). split; [exact I1|].
        assert (AN : (if l =? 0 then t else l) <= (if co_last o =? 0 then now else co_last o)).
        { rewrite B. destruct (Z.eqb_spec iv 0); [rewrite Z.eqb_refl; destruct (l =? 0); lia|]. destruct (Z.eqb_spec l 0); [destruct (Z.eqb_spec now 0); lia|].
          destruct (Z.ltb_spec now (l + iv)); [destruct (Z.eqb_spec l 0); lia|destruct (Z.eqb_spec now 0); lia]. }
        rewrite A, Z.eqb_refl. split; [lia|]. split; [constructor; [cbn [fst snd]; lia|exact I3]|lia].
      + assert (LN : 0 <= l <= now) by lia. pose proof (charged_secs _ _ _ _ _ _ LN Hi C) as SP. destruct (cg_due _ _ _ _ _ _ C) as (D1 & D2 & D3). pose proof (cg_secs _ _ _ _ _ _ C) as SC.
        pose proof (cg_last _ _ _ _ _ _ C) as LC. rewrite LC in IH. destruct (IH ltac:(lia)) as (I1 & I2 & I3 & I4). split; [exact I1|].
        assert (AN : (if now =? 0 then now else now) = now) by (destruct (now =? 0); reflexivity). rewrite AN in *.
        destruct (Z.eqb_spec l 0); [lia|]. destruct (Z.eqb_spec (co_secs o) 0); [lia|]. split; [lia|]. split; [constructor; [cbn [fst snd]; lia|exact I3]|lia]. }
  destruct G as (G1 & G2 & G3 & G4). assert ((if l1 =? 0 then t1 else l1) <= t1) by (destruct (l1 =? 0); lia). split; [lia|]. split; [exact G3|lia].
Qed.
Print Assumptions C73_history.

(** What is charged for each collateral, in its token: balance (with what is in spot orders) * usage * time * daily rate, and the
    total is the sum of these at the oracle prices. *)
Theorem C73_amounts interval now last hc E o : 0 <= last <= now -> 0 <= interval ->
  charge_collateral_fees interval now last hc E = Some o -> co_secs o <> 0 ->
  exists B, balances hc HMaint false = Some B /\ 0 < asset_health hc B /\ 0 < liab_health hc B /\ length (co_coll o) = length E /\
    (forall k e, nth_error E k = Some e -> exists f, nth_error (co_coll o) k = Some f /\ coll_ok hc B (co_secs o) e f) /\
    co_usd o = zsum (map (fun ef => fmul (snd ef) (entry_price hc (fst ef))) (combine E (co_coll o))).
Proof.
  intros Hl Hi H S. apply charge_cases in H as [(A & _)|C]; [contradiction| |assumption|assumption].
  pose proof (charged_secs _ _ _ _ _ _ Hl Hi C) as SP. destruct (cg_fees _ _ _ _ _ _ C) as (B & B1 & B2 & B3 & B4 & _ & _ & B5 & B6 & _).
  exists B. do 4 (split; [assumption|]). split; [apply B5; lia|apply B6; lia].
Qed.
Print Assumptions C73_amounts.

(** Who pays: each token with negative maintenance health, in proportion to it and at the oracle price; the position of the account goes down by
    that amount and the bank's collected fees go up by it; all other positions and banks stay as they are. *)
Theorem C73_payers interval now last hc E o : 0 <= last <= now -> 0 <= interval ->
  charge_collateral_fees interval now last hc E = Some o -> co_secs o <> 0 ->
  exists B, balances hc HMaint false = Some B /\ length (co_entries o) = length E /\ length (co_paid o) = length E /\
    forall k e, nth_error E k = Some e -> exists e' f, nth_error (co_entries o) k = Some e' /\ nth_error (co_paid o) k = Some f /\ paid_ok hc B (co_usd o) e e' f.
Proof.
  intros Hl Hi H S. apply charge_cases in H as [(A & _)|C]; [contradiction| |assumption|assumption].
  destruct (cg_fees _ _ _ _ _ _ C) as (B & B1 & B2 & B3 & B4 & B5 & B6 & _ & _ & B7). exists B. do 3 (split; [assumption|]). exact B7.
Qed.
Print Assumptions C73_payers.

Lemma usd_nonneg hc B secs E F : Forall (fun t => 0 < price t) (hc_tokens hc) -> length F = length E ->
  (forall k e, nth_error E k = Some e -> exists f, nth_error F k = Some f /\ coll_ok hc B secs e f) ->
  0 <= zsum (map (fun ef => fmul (snd ef) (entry_price hc (fst ef))) (combine E F)).
Proof.
  intros PR LN H. revert F LN H. induction E as [|e E IH]; intros F LN H; [cbn; lia|]. destruct F as [|f F]; [discriminate|]. cbn [combine map fst snd]. rewrite zsum_cons.
  assert (0 <= zsum (map (fun ef => fmul (snd ef) (entry_price hc (fst ef))) (combine E F))).
  { apply IH; [cbn in LN; lia|]. intros k e0 Hk. exact (H (S k) e0 Hk). }
  destruct (H 0%nat e eq_refl) as (f0 & F0 & [C1 C2]). cbn [nth_error] in F0. apply some_inj in F0. subst f0.
  assert (0 <= fmul f (entry_price hc e)); [|lia]. unfold entry_price. destruct (token_pos (hc_tokens hc) (ce_idx e)) as [j|] eqn:P; [|rewrite fmul_0_r; lia].
  destruct (nth_error (hc_tokens hc) j) as [t|] eqn:T; [|rewrite fmul_0_r; lia].
  assert (0 < price t) by (rewrite Forall_forall in PR; apply PR; eapply nth_error_In; exact T). apply fmul_nonneg; [|lia].
  destruct (Z_lt_le_dec 0 (ce_rate e)) as [R|R]; [|rewrite (C1 j t eq_refl T (or_introl R)); lia].
  destruct (Z.eq_dec (ce_aw e) 0) as [W|W]; [rewrite (C1 j t eq_refl T (or_intror (or_introl W))); lia|].
  destruct (Z_lt_le_dec 0 (fee_balance hc B j)) as [Y|Y]; [|rewrite (C1 j t eq_refl T (or_intror (or_intror Y))); lia].
  apply (C2 j t eq_refl T R W Y).
Qed.

(** What all borrows pay together is worth no more than the total charged, and less only by rounding. *)
Theorem C73_total interval now last hc E o : 0 <= last <= now -> 0 <= interval ->
  charge_collateral_fees interval now last hc E = Some o -> co_secs o <> 0 ->
  NoDup (map ti_index (hc_tokens hc)) -> map ce_idx E = map ti_index (hc_tokens hc) -> Forall (fun t => 0 < price t) (hc_tokens hc) ->
  let worth := zsum (map (fun ef => snd ef * entry_price hc (fst ef)) (combine E (co_paid o))) in
  0 <= co_usd o /\ worth <= co_usd o * fone <= worth + zsum (map (fun t => co_usd o + fone + price t) (hc_tokens hc)).
Proof.
  intros Hl Hi H S ND AL PR. cbv zeta. apply charge_cases in H as [(A & _)|C]; [contradiction| |assumption|assumption].
  pose proof (charged_secs _ _ _ _ _ _ Hl Hi C) as SP. destruct (cg_fees _ _ _ _ _ _ C) as (B & B1 & B2 & B3 & B4 & B5 & B6 & B7 & B8 & B9).
  assert (U0 : 0 <= co_usd o) by (rewrite (B8 ltac:(lia)); eapply usd_nonneg; [exact PR|exact B4|apply B7; lia]).
  split; [exact U0|]. refine (total_spec hc B (co_usd o) E (co_entries o) (co_paid o) ND AL PR U0 B3 B6 B9).
Qed.
Print Assumptions C73_total.

(** Accounts whose debts are worth less than 100$ are not charged -- where each perp market's settle token happens to be at the place
    of the account's token list that is its token index. *)
Theorem C73_small_in_place interval now last hc E o : NoDup (map ti_index (hc_tokens hc)) -> Forall (fun t => 0 <= price t) (hc_tokens hc) ->
  settle_in_place hc -> 0 <= last <= now -> 0 <= interval -> charge_collateral_fees interval now last hc E = Some o ->
  true_liabs hc < of_int 100000000 -> co_secs o = 0 /\ co_entries o = E.
Proof.
  intros ND PR SP Hl Hi H TL. apply charge_cases in H as [(A & B & _)|C]; [auto| |assumption|assumption].
  destruct (cg_liabs _ _ _ _ _ _ C) as (a & l & EP & ML). apply equity_liabs in EP; [|assumption..]. unfold MIN_LIABS in ML. lia.
Qed.
Print Assumptions C73_small_in_place.

(** ** examples *)
Definition ex_ce (i : Z) (n rate : Z) : centry := mkCE i (ex_lbank (ex_tpos n) (mkTpos 0 0)) (ex_tpos n) (pct rate) (pct 90).
Definition ex_cinfo (i n : Z) (price : fx) : tinfo := ex_info i 90 80 110 120 price (ex_lbank (ex_tpos n) (mkTpos 0 0)) (ex_tpos n).
(** a debt of 150$ covered by 200 tokens at 2$, 10% per day, after 5000s at an interval of 3600s *)
Example C73_example : let hc := mkHC [ex_cinfo 0 (-150000000) fone; ex_cinfo 1 200000000 (2 * fone)] [] [] in
  let E := [ex_ce 0 (-150000000) 0; ex_ce 1 200000000 10] in
  NoDup (map ti_index (hc_tokens hc)) /\ map ce_idx E = map ti_index (hc_tokens hc) /\ Forall (fun t => 0 < price t) (hc_tokens hc) /\
  exists o c0 c1 p0 p1, charge_collateral_fees 3600 6000 1000 hc E = Some o /\ co_last o = 6000 /\ co_secs o = 5000 /\
    co_coll o = [c0; c1] /\ c0 = 0 /\ of_int 530000 < c1 < of_int 531000 /\ of_int 1060000 < co_usd o < of_int 1062000 /\
    co_paid o = [p0; p1] /\ of_int 1060000 < p0 < of_int 1062000 /\ p1 = 0.
Proof.
  cbv zeta. split; [cbn; repeat constructor; cbn; intuition discriminate|]. split; [reflexivity|]. split; [repeat constructor; zc|]. do 5 eexists.
  split; [vm_compute; reflexivity|]. split; [reflexivity|]. split; [reflexivity|]. split; [reflexivity|]. split; [reflexivity|].
  do 2 (split; [split; zc|]). split; [reflexivity|]. split; [split; zc|reflexivity].
Qed.
(** called again: too early, then after a long time, for two intervals *)
Example C73_run_example : exists l1 t1, fee_run 0 500 [(3600, 0); (3600, 5000); (3600, 0); (3600, 7200)] l1 t1 /\ t1 = 100000.
Proof.
  pose (hc := mkHC [ex_cinfo 0 (-150000000) fone; ex_cinfo 1 200000000 (2 * fone)] [] []). pose (E := [ex_ce 0 (-150000000) 0; ex_ce 1 200000000 10]).
  assert (H1 : exists o, charge_collateral_fees 3600 1000 0 hc E = Some o /\ co_secs o = 0 /\ co_last o = 1000) by (eexists; split; [vm_compute; reflexivity|split; reflexivity]).
  assert (H2 : exists o, charge_collateral_fees 3600 6000 1000 hc E = Some o /\ co_secs o = 5000 /\ co_last o = 6000) by (eexists; split; [vm_compute; reflexivity|split; reflexivity]).
  assert (H3 : exists o, charge_collateral_fees 3600 9599 6000 hc E = Some o /\ co_secs o = 0 /\ co_last o = 6000) by (eexists; split; [vm_compute; reflexivity|split; reflexivity]).
  assert (H4 : exists o, charge_collateral_fees 3600 100000 6000 hc E = Some o /\ co_secs o = 7200 /\ co_last o = 100000) by (eexists; split; [vm_compute; reflexivity|split; reflexivity]).
  destruct H1 as (o1 & A1 & S1 & L1), H2 as (o2 & A2 & S2 & L2), H3 as (o3 & A3 & S3 & L3), H4 as (o4 & A4 & S4 & L4). exists 100000, 100000. split; [|reflexivity].
  rewrite <- L1 in A2. rewrite <- L2 in A3. rewrite <- L3 in A4.
  assert (R : fee_run 0 500 [(3600, co_secs o1); (3600, co_secs o2); (3600, co_secs o3); (3600, co_secs o4)] 100000 100000).
  { apply (fr_call 0 500 3600 1000 hc E o1); [lia|lia|exact A1|]. apply (fr_call _ 1000 3600 6000 hc E o2); [lia|lia|exact A2|].
    apply (fr_call _ 6000 3600 9599 hc E o3); [lia|lia|exact A3|]. apply (fr_call _ 9599 3600 100000 hc E o4); [lia|lia|exact A4|]. rewrite L4. apply fr_done. }
  rewrite S1, S2, S3, S4 in R. exact R.
Qed.
(** a debt of 50$: not charged *)
Example C73_small_example : let hc := mkHC [ex_cinfo 0 (-50000000) fone; ex_cinfo 1 200000000 (2 * fone)] [] [] in
  let E := [ex_ce 0 (-50000000) 0; ex_ce 1 200000000 10] in
  settle_in_place hc /\ true_liabs hc < of_int 100000000 /\ exists o, charge_collateral_fees 3600 6000 1000 hc E = Some o /\ co_last o = 6000.
Proof. cbv zeta. split; [constructor|]. split; [zc|]. eexists. split; [vm_compute; reflexivity|reflexivity]. Qed.

(** "Accounts whose debts are worth less than 100$ are not charged" is false: an account whose only debt is a negative perp
    pnl of 1$, settled in token 1, is charged: the debt is valued at the price of the token in second place of its token list
    (here token 5, at 200$). *)
Theorem C73_threshold_refuted : exists hc E o f e, NoDup (map ti_index (hc_tokens hc)) /\ map ce_idx E = map ti_index (hc_tokens hc) /\
  Forall (fun t => 0 < price t) (hc_tokens hc) /\ Forall (fun pi => settle_price hc (pi_settle pi) = fone) (hc_perps hc) /\
  true_liabs hc = of_int 1000000 /\ charge_collateral_fees 3600 6000 1000 hc E = Some o /\ co_secs o = 5000 /\
  nth_error (co_paid o) 0 = Some f /\ of_int 6000 < f /\ nth_error (co_entries o) 0 = Some e /\ native (ce_bank e) (ce_pos e) < of_int (-6000).
Proof.
  exists (mkHC [ex_cinfo 1 0 fone; ex_cinfo 5 1000000 (200 * fone)] [] [mkPI 0 1 fone fone fone fone fone fone 1 0 0 0 (of_int (-1000000)) (mkPr fone fone) false false]).
  exists [ex_ce 1 0 0; ex_ce 5 1000000 100]. do 3 eexists. split; [cbn; repeat constructor; cbn; intuition discriminate|]. split; [reflexivity|]. split; [repeat constructor; zc|].
  split; [repeat constructor|]. split; [vm_compute; reflexivity|]. split; [vm_compute; reflexivity|]. split; [reflexivity|]. split; [reflexivity|]. split; [zc|]. split; [reflexivity|zc].
Qed.
Print Assumptions C73_threshold_refuted.

(** The same slip makes the instruction fail for every account that has a perp position and fewer tokens than the settle token's index. *)
Theorem C73_never_charged interval now last hc E pi : In pi (hc_perps hc) -> Z.of_nat (length (hc_tokens hc)) <= pi_settle pi ->
  interval <> 0 -> last <> 0 -> last + interval <= now -> charge_collateral_fees interval now last hc E = None.
Proof.
  intros Hin Hs Hi Hl Hd. unfold charge_collateral_fees. destruct (Z.eqb_spec interval 0); [contradiction|]. destruct (Z.eqb_spec last 0); [contradiction|].
  destruct (guard (last + interval <? 2 ^ 64)); [|reflexivity]. destruct (Z.ltb_spec now (last + interval)); [lia|].
  destruct (guard (2 * interval <? 2 ^ 64)); [|reflexivity]. assert (EP : equity_parts hc = None); [|rewrite EP; reflexivity].
  unfold equity_parts. destruct (serum_values _ _ _) as [al|]; [|reflexivity]. revert al. revert Hin. generalize (hc_perps hc) as P.
  induction P as [|q P IH]; [intros []|]. intros [->|Hin] al; cbn [perp_values].
  - assert (N : nth_error (hc_tokens hc) (Z.to_nat (pi_settle pi)) = None) by (apply nth_error_None; lia). rewrite N. reflexivity.
  - destruct (nth_error (hc_tokens hc) (Z.to_nat (pi_settle q))); [|reflexivity]. apply IH. exact Hin.
Qed.
Print Assumptions C73_never_charged.
Example C73_never_example : charge_collateral_fees 3600 6000 1000 (mkHC [ex_cinfo 1 0 fone] [] [mkPI 0 1 fone fone fone fone fone fone 1 0 0 0 0 (mkPr fone fone) false false]) [ex_ce 1 0 0] = None.
Proof. vm_compute. reflexivity. Qed.
