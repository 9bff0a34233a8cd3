(** Histories of spot orders. *)
From Coq Require Import List ZArith Lia Bool.
From Verif Require Import OrderTree Keys PerpTypes Interest InterestFacts Bank BankFacts BankInv BankSpec BankSolvency Health LiqState TokenLiq Serum SerumSpec SerumFacts Fixed.
Import ListNotations.
Open Scope Z_scope.

(** ** one side of an account in one market *)
Inductive side_step (bwf total : Z) (f : flow) (bwf' total' : Z) : Prop :=
| ss_idle : bwf' = bwf -> f = no_flow total total' -> side_step bwf total f bwf' total'
| ss_place : bwf' = bwf + fl_debt f / fone -> 0 <= fl_debt f -> fl_debt f / fone <= fl_sent f -> fl_lost f = Z.max 0 (total + fl_sent f - total') -> fl_settled f = 0 -> fl_loan f = 0 -> side_step bwf total f bwf' total'
| ss_settle : fl_loan f = Z.max 0 (bwf - total) -> 0 <= fl_settled f -> bwf' = Z.max 0 (Z.min bwf total - fl_settled f) ->
    fl_lost f = Z.max 0 (total - fl_settled f - total') -> fl_debt f = 0 -> fl_sent f = 0 -> side_step bwf total f bwf' total'.
Inductive side_run : Z -> Z -> list flow -> Z -> Z -> Prop :=
| sd_done bwf total : side_run bwf total [] bwf total
| sd_step bwf total f bwf1 total1 L bwf' total' : side_step bwf total f bwf1 total1 -> 0 <= total1 -> side_run bwf1 total1 L bwf' total' -> side_run bwf total (f :: L) bwf' total'.

Lemma settled_side pf s s' dao oo oo' bv bv' qv qv' rec loans base : 0 <= so_bbwf (ss_so s) -> 0 <= so_qbwf (ss_so s) -> oo_ok oo ->
  settled pf s s' dao oo oo' bv bv' qv qv' rec loans ->
  side_step (bwf_of base (ss_so s)) (total_of base oo)
    (flow_of base (settle_flow (oo_base_total oo) (oo_base_total oo') bv bv' (fst loans), settle_flow (oo_quote_total oo) (oo_quote_total oo') qv (qv' - rec) (snd loans)))
    (bwf_of base (ss_so s')) (total_of base oo').
Proof.
  intros W1 W2 ((T1 & T2) & (T3 & T4) & _) S. destruct base; unfold flow_of, bwf_of, total_of; cbn [fst snd].
  - destruct (se_bside _ _ _ _ _ _ _ _ _ _ _ _ S) as [A B C _]. apply ss_settle; cbn [settle_flow fl_lost fl_sent fl_debt fl_settled fl_loan]; [exact A|lia|apply C; lia|lia|reflexivity|reflexivity].
  - destruct (se_qside _ _ _ _ _ _ _ _ _ _ _ _ S) as [A B C _]. apply ss_settle; cbn [settle_flow fl_lost fl_sent fl_debt fl_settled fl_loan]; [exact A|lia|rewrite C by lia; f_equal; lia|lia|reflexivity|reflexivity].
Qed.
Lemma placed_side e s s' pl base : 0 <= so_bbwf (ss_so s) -> 0 <= so_qbwf (ss_so s) -> state_ok s -> placed e s s' pl ->
  side_step (bwf_of base (ss_so s)) (total_of base (pl_oo pl))
    (flow_of base (if pl_bid pl then no_flow (oo_base_total (pl_oo pl)) (oo_base_total (pl_oo' pl))
        else place_flow (oo_base_total (pl_oo pl)) (oo_base_total (pl_oo' pl)) (pl_vault pl) (pl_vault' pl) (ss_bb s) (ss_bb s') (ss_bp s) (ss_bp s'),
        if pl_bid pl then place_flow (oo_quote_total (pl_oo pl)) (oo_quote_total (pl_oo' pl)) (pl_vault pl) (pl_vault' pl) (ss_qb s) (ss_qb s') (ss_qp s) (ss_qp s')
        else no_flow (oo_quote_total (pl_oo pl)) (oo_quote_total (pl_oo' pl))))
    (bwf_of base (ss_so s')) (total_of base (pl_oo' pl)).
Proof.
  intros W1 W2 [OB OQ] P. pose proof (pd_sent _ _ _ _ P) as VL. pose proof (pd_rbwf _ _ _ _ P) as RB. pose proof (pd_in _ _ _ _ P) as PI. pose proof (pd_out _ _ _ _ P) as PO.
  pose proof (pd_payer _ _ _ _ P) as PP. unfold payer_bwf, payer_bank, payer_pos in *. unfold bwf_of, total_of, flow_of.
  assert (DZ : forall b b' p p', side_ok b p -> side_moved 1 b b' p p' (of_int 0) 0 -> 0 <= Z.max 0 (debt b' p' - debt b p) < fone).
  { intros b b' p p' OK M. pose proof fone_pos as FP. destruct (Z.le_gt_cases 0 (debt b p - debt b' p')); [lia|]. destruct (sm_claim _ _ _ _ _ _ _ M) as [C1 C2].
    pose proof (native_bounds b p) as [N1 N2]. pose proof (native_bounds b' p') as [N3 N4]. rewrite !pv_claim in *. change (of_int 0) with 0 in *.
    assert ((native b p - native b' p') < 3) by nia. assert (3 < fone) by reflexivity. unfold debt in *. lia. }
  assert (PLC : forall b b' p p' bwf bwf' total total', side_ok b p -> side_moved 1 b b' p p' (of_int (pl_vault' pl - pl_vault pl)) 0 -> 0 <= bwf ->
    (pl_vault' pl = pl_vault pl -> 0 <= bwf -> bwf' = bwf) -> (pl_vault' pl < pl_vault pl -> bwf' = bwf + to_int (debt b' p' - debt b p) /\ 0 <= to_int (debt b' p' - debt b p) <= pl_vault pl - pl_vault' pl) ->
    side_step bwf total (place_flow total total' (pl_vault pl) (pl_vault' pl) b b' p p') bwf' total').
  { intros b b' p p' bwf bwf' total total' OK M W I O. apply ss_place; cbn [place_flow fl_lost fl_sent fl_debt fl_settled fl_loan]; try reflexivity; try lia.
    - destruct (Z.eq_dec (pl_vault' pl) (pl_vault pl)) as [E|E].
      + rewrite (I E W). rewrite E, Z.sub_diag in M. rewrite Z.div_small by (apply (DZ _ _ _ _ OK M)). lia.
      + destruct (O ltac:(lia)) as [-> ?]. unfold to_int in *. assert (0 <= debt b' p' - debt b p) by (pose proof fone_pos; destruct (Z.le_gt_cases 0 (debt b' p' - debt b p)); [assumption|]; pose proof (Z.div_lt_upper_bound (debt b' p' - debt b p) fone 0 ltac:(lia) ltac:(lia)); lia).
        rewrite Z.max_r by lia. reflexivity.
    - destruct (Z.eq_dec (pl_vault' pl) (pl_vault pl)) as [E|E].
      + rewrite E, Z.sub_diag in M. rewrite Z.div_small by (apply (DZ _ _ _ _ OK M)). lia.
      + destruct (O ltac:(lia)) as [_ ?]. unfold to_int in *. assert (0 <= debt b' p' - debt b p) by (pose proof fone_pos; destruct (Z.le_gt_cases 0 (debt b' p' - debt b p)); [assumption|]; pose proof (Z.div_lt_upper_bound (debt b' p' - debt b p) fone 0 ltac:(lia) ltac:(lia)); lia).
        rewrite Z.max_r by lia. lia. }
  destruct (pl_bid pl); destruct base; cbn [fst snd negb] in *.
  - apply ss_idle; [exact RB|reflexivity].
  - apply PLC; assumption.
  - apply PLC; assumption.
  - apply ss_idle; [exact RB|reflexivity].
Qed.
Lemma step_nonneg bwf total f bwf' total' : side_step bwf total f bwf' total' -> 0 <= bwf -> 0 <= bwf'.
Proof. pose proof fone_pos. intros [-> ?| -> A ? ? ? ?|? ? -> ? ? ?] W; [exact W| |lia]. pose proof (Z.div_pos (fl_debt f) fone A). lia. Qed.
Lemma side_of_run so oo L so' oo' : spot_run so oo L so' oo' -> forall base, 0 <= so_bbwf so -> 0 <= so_qbwf so -> oo_ok oo ->
  side_run (bwf_of base so) (total_of base oo) (map (flow_of base) L) (bwf_of base so') (total_of base oo').
Proof.
  induction 1 as [so oo|so oo oo1 L so' oo' O1 R IH|e s hc flag pl s1 f1 hc1 L so' oo' OK O1 H R IH|pf s dao ok oo oo1 bv bv' qv qv' now s1 rec loans L so' oo' OK O1 H R IH|
    e s hc flag op force oo oo1 bv bv' qv qv' now wb wq s1 f1 hc1 rec loans L so' oo' OK O1 H R IH]; intros base W1 W2 OO; cbn [map].
  - apply sd_done.
  - eapply sd_step; [|destruct O1 as ((? & ?) & (? & ?) & _); unfold total_of; instantiate (1 := total_of base oo1); unfold total_of; destruct base; lia|apply IH; assumption].
    apply ss_idle; [reflexivity|]. destruct base; reflexivity.
  - apply place_spec in H as [P _]; [|exact OK]. pose proof (fun b => placed_side _ _ _ _ b W1 W2 OK P) as ST.
    eapply sd_step; [apply (ST base)|destruct O1 as ((? & ?) & (? & ?) & _); unfold total_of; destruct base; lia|]. apply IH; [|  |exact O1].
    + exact (step_nonneg _ _ _ _ _ (ST true) W1).
    + exact (step_nonneg _ _ _ _ _ (ST false) W2).
  - apply settle_funds_spec in H; [|exact OK]. pose proof (fun b => settled_side _ _ _ _ _ _ _ _ _ _ _ _ b W1 W2 OO H) as ST.
    eapply sd_step; [apply (ST base)|destruct O1 as ((? & ?) & (? & ?) & _); unfold total_of; destruct base; lia|]. apply IH; [|  |exact O1].
    + exact (step_nonneg _ _ _ _ _ (ST true) W1).
    + exact (step_nonneg _ _ _ _ _ (ST false) W2).
  - apply force_cancel_inv in H as (m & l & _ & _ & _ & x1 & bc & qc & y1 & y2 & i & h' & C & S & _). cbn zeta in *.
    apply (settled_spec _ _ _ _ _ _ _ _ _ _ _ _ _ _ _ _ OK C) in S as (S & _). pose proof (fun b => settled_side _ _ _ _ _ _ _ _ _ _ _ _ b W1 W2 OO S) as ST.
    eapply sd_step; [apply (ST base)|destruct O1 as ((? & ?) & (? & ?) & _); unfold total_of; destruct base; lia|]. apply IH; [|  |exact O1].
    + exact (step_nonneg _ _ _ _ _ (ST true) W1).
    + exact (step_nonneg _ _ _ _ _ (ST false) W2).
Qed.

Lemma run_used bwf total L bwf' total' : side_run bwf total L bwf' total' -> 0 <= bwf -> 0 <= total ->
  totals fl_loan L + Z.max 0 (bwf' - total') <= totals fl_lost L + Z.max 0 (bwf - total).
Proof.
  induction 1 as [|bwf total f bwf1 total1 L bwf' total' S T1 R IH]; intros W T; cbn [totals fold_right]; [lia|].
  change (fold_right (fun x t => fl_loan x + t) 0 L) with (totals fl_loan L). change (fold_right (fun x t => fl_lost x + t) 0 L) with (totals fl_lost L).
  specialize (IH (step_nonneg _ _ _ _ _ S W) T1). destruct S as [-> ->| -> A B C D E|A B -> C D E]; cbn [no_flow fl_loan fl_lost] in *; lia.
Qed.
Definition floor_debt (f : flow) : Z := fl_debt f / fone.
Lemma run_debt bwf total L bwf' total' : side_run bwf total L bwf' total' -> 0 <= bwf -> 0 <= total ->
  totals fl_loan L + bwf' <= bwf + totals floor_debt L /\ bwf + totals floor_debt L <= totals fl_loan L + totals fl_settled L + bwf'.
Proof.
  induction 1 as [|bwf total f bwf1 total1 L bwf' total' S T1 R IH]; intros W T; cbn [totals fold_right]; [lia|].
  change (fold_right (fun x t => fl_loan x + t) 0 L) with (totals fl_loan L). change (fold_right (fun x t => floor_debt x + t) 0 L) with (totals floor_debt L). change (fold_right (fun x t => fl_settled x + t) 0 L) with (totals fl_settled L).
  specialize (IH (step_nonneg _ _ _ _ _ S W) T1). unfold floor_debt at 1 3.
  destruct S as [-> ->| -> A B C D E|A B -> C D E]; cbn [no_flow fl_loan fl_lost fl_debt fl_settled] in *; [rewrite Z.div_0_l by (pose proof fone_pos; lia); lia|lia|rewrite D, Z.div_0_l by (pose proof fone_pos; lia); lia].
Qed.
Lemma run_flows bwf total L bwf' total' : side_run bwf total L bwf' total' -> Forall (fun f => 0 <= fl_loan f /\ 0 <= fl_lost f /\ 0 <= fl_debt f) L.
Proof. induction 1 as [|? ? f ? ? ? ? ? S]; constructor; [|assumption]. destruct S as [-> ->|A B C -> D E| -> B A C D E]; cbn [no_flow fl_loan fl_lost fl_debt]; lia. Qed.
Lemma floor_total L : Forall (fun f => 0 <= fl_debt f) L -> totals floor_debt L * fone <= totals fl_debt L.
Proof.
  induction 1 as [|f L A F IH]; cbn [totals fold_right]; [lia|]. change (fold_right (fun x t => floor_debt x + t) 0 L) with (totals floor_debt L). change (fold_right (fun x t => fl_debt x + t) 0 L) with (totals fl_debt L).
  unfold floor_debt at 1. pose proof (Z.mul_div_le (fl_debt f) fone fone_pos). lia.
Qed.

(** ** order prices *)
Lemma has_bids_view G : has_bids (view G) = true <-> exists p, In (Some (true, p)) G.
Proof.
  unfold has_bids, view. rewrite existsb_exists. split.
  - intros (o & I & H). apply in_map_iff in I as ([[b p]|] & <- & I); [|discriminate]. cbn in H. destruct b; [|discriminate]. exists p. exact I.
  - intros (p & I). exists (Some true). split; [|reflexivity]. apply in_map_iff. exists (Some (true, p)). auto.
Qed.
Lemma has_asks_view G : has_asks (view G) = true <-> exists p, In (Some (false, p)) G.
Proof.
  unfold has_asks, view. rewrite existsb_exists. split.
  - intros (o & I & H). apply in_map_iff in I as ([[b p]|] & <- & I); [|discriminate]. cbn in H. destruct b; [discriminate|]. exists p. exact I.
  - intros (p & I). exists (Some false). split; [|reflexivity]. apply in_map_iff. exists (Some (false, p)). auto.
Qed.
Lemma freed_in G G' x : freed G G' -> In (Some x) G' -> In (Some x) G.
Proof. induction 1 as [|a b G G' [->| ->] F IH]; intros I; [exact I| |]; (destruct I as [E|I]; [try discriminate; left; exact E|right; apply IH, I]). Qed.
Lemma tracked_freed so G G' : freed G G' -> tracked so G -> tracked so G'.
Proof. intros F [A B]. split; intros p I; [apply A|apply B]; eapply freed_in; eassumption. Qed.
Lemma rested_in bid lots G G' x : rested bid lots G G' -> In (Some x) G' -> In (Some x) G \/ x = (bid, lots).
Proof. induction 1 as [|a b G G' [->|[->|[-> ->]]] F IH]; intros I; [destruct I| | |]; (destruct I as [E|I]; [first [discriminate|left; left; exact E|right; congruence]|destruct (IH I); [left; right; assumption|right; assumption]]). Qed.
Lemma rested_same bid lots G G' : rested bid lots G G' -> free_bits (view G) = free_bits (view G') -> G' = G.
Proof.
  induction 1 as [|a b G G' H F IH]; intros E; [reflexivity|]. unfold view, free_bits in *. cbn [map] in E. injection E as E1 E2. rewrite (IH E2). f_equal.
  destruct H as [->|[->|[-> ->]]]; [reflexivity| |discriminate]. destruct a; [discriminate|reflexivity].
Qed.
Lemma tracked_same so so' G : same_prices so so' -> tracked so G -> tracked so' G.
Proof. intros (A & B & C & D) [T1 T2]. unfold tracked. rewrite A, B, C, D. auto. Qed.
Lemma tracked_place so bid lots G G' : 0 < lots -> rested bid lots G G' -> tracked so G -> tracked (track so bid lots (view G) (view G')) G'.
Proof.
  intros L R [T1 T2].
  assert (NB : has_bids (view G) = false -> forall p, ~ In (Some (true, p)) G) by (intros E p I; assert (has_bids (view G) = true) by (apply has_bids_view; exists p; exact I); congruence).
  assert (NA : has_asks (view G) = false -> forall p, ~ In (Some (false, p)) G) by (intros E p I; assert (has_asks (view G) = true) by (apply has_asks_view; exists p; exact I); congruence).
  assert (YB : has_bids (view G) = true -> 0 < so_bid_lo so <= so_bid_hi so) by (intros E; apply has_bids_view in E as (p & I); specialize (T1 p I); lia).
  assert (YA : has_asks (view G) = true -> 0 < so_ask_lo so <= so_ask_hi so) by (intros E; apply has_asks_view in E as (p & I); specialize (T2 p I); lia).
  unfold track. destruct (same_bits _ _) eqn:SB.
  - apply same_bits_eq in SB. rewrite (rested_same _ _ _ _ R SB) in *. split; cbn [so_bid_lo so_bid_hi so_ask_lo so_ask_hi]; intros p I.
    + destruct (has_bids (view G)) eqn:HB; [apply T1, I|destruct (NB eq_refl p I)].
    + destruct (has_asks (view G)) eqn:HA; [apply T2, I|destruct (NA eq_refl p I)].
  - destruct bid; split; cbn [so_bid_lo so_bid_hi so_ask_lo so_ask_hi]; intros p I; (destruct (rested_in _ _ _ _ _ R I) as [J|J]; [|first [discriminate|injection J as ->]]).
    + destruct (has_bids (view G)) eqn:HB; [|destruct (NB eq_refl p J)]. specialize (T1 p J). specialize (YB eq_refl). unfold min0, max0.
      destruct (Z.eqb_spec (so_bid_lo so) 0), (Z.eqb_spec (so_bid_hi so) 0); lia.
    + destruct (has_bids (view G)) eqn:HB; unfold min0, max0; [|cbn; lia]. specialize (YB eq_refl). destruct (Z.eqb_spec (so_bid_lo so) 0), (Z.eqb_spec (so_bid_hi so) 0); lia.
    + destruct (has_asks (view G)) eqn:HA; [apply T2, J|destruct (NA eq_refl p J)].
    + destruct (has_bids (view G)) eqn:HB; [apply T1, J|destruct (NB eq_refl p J)].
    + destruct (has_asks (view G)) eqn:HA; [|destruct (NA eq_refl p J)]. specialize (T2 p J). specialize (YA eq_refl). unfold min0, max0.
      destruct (Z.eqb_spec (so_ask_lo so) 0), (Z.eqb_spec (so_ask_hi so) 0); lia.
    + destruct (has_asks (view G)) eqn:HA; unfold min0, max0; [|cbn; lia]. specialize (YA eq_refl). destruct (Z.eqb_spec (so_ask_lo so) 0), (Z.eqb_spec (so_ask_hi so) 0); lia.
Qed.
Lemma order_run_tracked so G so' G' : order_run so G so' G' -> tracked so G -> tracked so' G'.
Proof.
  induction 1 as [so G|so G G1 so' G' F R IH|e s hc flag pl s1 f1 hc1 G G1 so' G' OK H V V' RS R IH|pf s dao ok oo oo1 bv bv' qv qv' now s1 rec loans G so' G' OK H R IH|
    e s hc flag op force oo oo1 bv bv' qv qv' now wb wq s1 f1 r G G1 so' G' OK H F R IH]; intros T.
  - exact T.
  - apply IH. exact (tracked_freed _ _ _ F T).
  - apply IH. apply place_spec in H as [P _]; [|exact OK]. refine (tracked_same _ _ _ (pd_prices _ _ _ _ P) _). rewrite V, V'. apply tracked_place; [apply (pd_lots _ _ _ _ P)|exact RS|exact T].
  - apply IH. apply settle_funds_spec in H; [|exact OK]. exact (tracked_same _ _ _ (se_prices _ _ _ _ _ _ _ _ _ _ _ _ H) T).
  - apply IH. apply (tracked_freed _ _ _ F). destruct r as [[[hc' rec] loans]|]; apply force_cancel_inv in H as (m & l & _ & _ & H); cbn zeta in H.
    + destruct H as (_ & x1 & bc & qc & y1 & y2 & i & h' & C & S & _). apply (settled_spec _ _ _ _ _ _ _ _ _ _ _ _ _ _ _ _ OK C) in S as (S & _).
      exact (tracked_same _ _ _ (se_prices _ _ _ _ _ _ _ _ _ _ _ _ S) T).
    + destruct H as (-> & _). exact T.
Qed.

(** ** potential tokens *)
Definition pot_ok (a : sorders * openorders) : Prop :=
  oo_ok (snd a) /\ 0 <= so_pot_base (fst a) /\ 0 <= so_pot_quote (fst a) /\ (empty_oo (snd a) -> so_pot_base (fst a) = 0 /\ so_pot_quote (fst a) = 0).
Lemma pot_sum_app f A B : pot_sum f (A ++ B) = pot_sum f A + pot_sum f B.
Proof. induction A as [|a A IH]; cbn [app pot_sum fold_right]; [reflexivity|]. unfold pot_sum in *. rewrite IH. lia. Qed.
Lemma pot_sum_cons f a A : pot_sum f (a :: A) = f (fst a) + pot_sum f A. Proof. reflexivity. Qed.
Lemma pot_sum_nonneg f A : Forall (fun a => 0 <= f (fst a)) A -> 0 <= pot_sum f A.
Proof. induction 1; [cbn; lia|]. rewrite pot_sum_cons. lia. Qed.
Lemma pot_values_base pf so oo n : oo_ok oo -> (forall q r, 0 <= q -> 0 <= pf_to_base pf q r /\ 0 <= pf_to_quote pf q r) -> (forall r, pf_to_base pf 0 r = 0 /\ pf_to_quote pf 0 r = 0) ->
  potential_base pf so oo = Some n -> 0 <= n /\ (empty_oo oo -> n = 0).
Proof.
  intros ((A & B) & (C & D) & _) P0 Z0 H. unfold potential_base in H. destruct (Z.leb_spec (oo_quote_free oo) (oo_quote_total oo)); cbn [guard] in H; [|discriminate].
  destruct (guard _); [|discriminate]. apply some_inj in H. subst n. split.
  - destruct (P0 (oo_quote_total oo - oo_quote_free oo) (so_bid_lo so) ltac:(lia)). lia.
  - intros [E1 E2]. rewrite E1, E2. replace (0 - oo_quote_free oo) with 0 by lia. destruct (Z0 (so_bid_lo so)) as [-> _]. reflexivity.
Qed.
Lemma pot_values_quote pf so oo n : oo_ok oo -> (forall q r, 0 <= q -> 0 <= pf_to_base pf q r /\ 0 <= pf_to_quote pf q r) -> (forall r, pf_to_base pf 0 r = 0 /\ pf_to_quote pf 0 r = 0) ->
  potential_quote pf so oo = Some n -> 0 <= n /\ (empty_oo oo -> n = 0).
Proof.
  intros ((A & B) & (C & D) & _) P0 Z0 H. unfold potential_quote in H. destruct (Z.leb_spec (oo_base_free oo) (oo_base_total oo)); cbn [guard] in H; [|discriminate].
  destruct (guard _); [|discriminate]. apply some_inj in H. subst n. split.
  - destruct (P0 (oo_base_total oo - oo_base_free oo) (so_ask_hi so) ltac:(lia)). lia.
  - intros [E1 E2]. rewrite E1, E2. replace (0 - oo_base_free oo) with 0 by lia. destruct (Z0 (so_ask_hi so)) as [_ ->]. reflexivity.
Qed.
Definition pots_match (x : (Z * Z) * list (sorders * openorders)) (cb cq : Z) : Prop :=
  fst (fst x) = cb + pot_sum so_pot_base (snd x) /\ snd (fst x) = cq + pot_sum so_pot_quote (snd x) /\ Forall pot_ok (snd x).
Lemma pots_change v v' A B so so' oo oo' cb cq bb bb' qb qb' : 0 <= cb -> 0 <= cq -> v = (b_serum bb, b_serum qb) -> v' = (b_serum bb', b_serum qb') ->
  pots_match (v, A ++ (so, oo) :: B) cb cq -> pot_moved bb bb' (so_pot_base so) (so_pot_base so') -> pot_moved qb qb' (so_pot_quote so) (so_pot_quote so') ->
  pot_ok (so', oo') -> pots_match (v', A ++ (so', oo') :: B) cb cq.
Proof.
  intros C1 C2 -> -> (M1 & M2 & F) P1 P2 K. unfold pots_match in *. cbn [fst snd] in *. apply Forall_app in F as [FA FB]. inversion FB as [|? ? F0 FB']; subst.
  rewrite !pot_sum_app, !pot_sum_cons in *. cbn [fst] in *.
  assert (0 <= pot_sum so_pot_base A /\ 0 <= pot_sum so_pot_base B /\ 0 <= pot_sum so_pot_quote A /\ 0 <= pot_sum so_pot_quote B) as (N1 & N2 & N3 & N4).
  { do 3 (split; [apply pot_sum_nonneg; eapply Forall_impl; [|first [exact FA|exact FB']]; intros a (_ & ? & ? & _); assumption|]).
    apply pot_sum_nonneg; eapply Forall_impl; [|exact FB']; intros a (_ & ? & ? & _); assumption. }
  destruct K as (K0 & K1 & K2 & K3). cbn [fst snd] in *. unfold pot_moved in *. split; [|split].
  - revert P1. destruct (Z.leb_spec (so_pot_base so) (so_pot_base so')); intros; lia.
  - revert P2. destruct (Z.leb_spec (so_pot_quote so) (so_pot_quote so')); intros; lia.
  - apply Forall_app. split; [exact FA|]. constructor; [unfold pot_ok; cbn [fst snd]; auto|exact FB'].
Qed.
Lemma pot_step_match x y cb cq : 0 <= cb -> 0 <= cq -> pot_step x y -> pots_match x cb cq -> pots_match y cb cq.
Proof.
  intros C1 C2 S M. destruct S as [v A oo E O|v A B so oo E|v A B so oo oo' O E|e s hc flag pl s' f' hc' A B OK H O E P0 Z0|pf s dao ok oo oo' bv bv' qv qv' now s' rec loans A B OK H O P0 Z0|
    e s hc flag op force oo oo' bv bv' qv qv' now wb wq s' f' r A B OK H O P0 Z0].
  - destruct M as (M1 & M2 & F). unfold pots_match. cbn [fst snd] in *. rewrite !pot_sum_app, !pot_sum_cons. cbn [fst new_orders so_pot_base so_pot_quote pot_sum fold_right].
    split; [lia|]. split; [lia|]. apply Forall_app. split; [exact F|]. constructor; [|constructor]. unfold pot_ok. cbn. split; [exact O|]. lia.
  - destruct M as (M1 & M2 & F). unfold pots_match. cbn [fst snd] in *. rewrite !pot_sum_app, !pot_sum_cons in *. apply Forall_app in F as [FA FB]. inversion FB as [|? ? F0 FB']; subst.
    destruct F0 as (_ & _ & _ & Z1). destruct (Z1 E) as [Z2 Z3]. cbn [fst snd] in *. split; [lia|]. split; [lia|]. apply Forall_app. auto.
  - destruct M as (M1 & M2 & F). unfold pots_match. cbn [fst snd] in *. rewrite !pot_sum_app, !pot_sum_cons in *. apply Forall_app in F as [FA FB]. inversion FB as [|? ? F0 FB']; subst.
    cbn [fst snd] in *. split; [lia|]. split; [lia|]. apply Forall_app. split; [exact FA|]. constructor; [|exact FB']. destruct F0 as (_ & ? & ? & Z1). unfold pot_ok. cbn [fst snd] in *. clear - O E H H0 Z1. tauto.
  - apply place_spec in H as [P _]; [|exact OK].
    assert (K0 : pot_ok (ss_so s, pl_oo pl)) by (destruct M as (_ & _ & F); apply Forall_app in F as [_ F]; inversion F; assumption).
    refine (pots_change _ _ _ _ _ _ _ _ _ _ _ _ _ _ C1 C2 eq_refl eq_refl M (pd_bpot _ _ _ _ P) (pd_qpot _ _ _ _ P) _).
    pose proof (pd_pot_payer _ _ _ _ P) as Q1. pose proof (pd_pot_receiver _ _ _ _ P) as Q2. pose proof (pd_pot_receiver1 _ _ _ _ P) as Q3.
    destruct K0 as (_ & K1 & K2 & K3). unfold pot_ok, pot_of, payer_pot in *. cbn [fst snd] in *. split; [exact O|].
    assert (XB : (potential_base (se_pf e) (ss_so s') (pl_oo' pl) = Some (so_pot_base (ss_so s')) \/ so_pot_base (ss_so s') = so_pot_base (ss_so s)) /\
                 (potential_quote (se_pf e) (ss_so s') (pl_oo' pl) = Some (so_pot_quote (ss_so s')) \/ so_pot_quote (ss_so s') = so_pot_quote (ss_so s))).
    { destruct (pl_bid pl), (pl_v2 pl); cbn [negb] in *; split; auto. }
    destruct XB as [XB XQ].
    assert (YB : 0 <= so_pot_base (ss_so s') /\ (empty_oo (pl_oo' pl) -> so_pot_base (ss_so s') = 0)).
    { destruct XB as [X|X]; [exact (pot_values_base _ _ _ _ O P0 Z0 X)|rewrite X; split; [exact K1|]; intros EE; apply K3, E, EE]. }
    assert (YQ : 0 <= so_pot_quote (ss_so s') /\ (empty_oo (pl_oo' pl) -> so_pot_quote (ss_so s') = 0)).
    { destruct XQ as [X|X]; [exact (pot_values_quote _ _ _ _ O P0 Z0 X)|rewrite X; split; [exact K2|]; intros EE; apply K3, E, EE]. }
    tauto.
  - apply settle_funds_spec in H; [|exact OK].
    refine (pots_change _ _ _ _ _ _ _ _ _ _ _ _ _ _ C1 C2 eq_refl eq_refl M (se_bpot _ _ _ _ _ _ _ _ _ _ _ _ H) (se_qpot _ _ _ _ _ _ _ _ _ _ _ _ H) _).
    unfold pot_ok. cbn [fst snd]. pose proof (pot_values_base _ _ _ _ O P0 Z0 (se_pot_base _ _ _ _ _ _ _ _ _ _ _ _ H)). pose proof (pot_values_quote _ _ _ _ O P0 Z0 (se_pot_quote _ _ _ _ _ _ _ _ _ _ _ _ H)). tauto.
  - destruct r as [[hc' rec] loans]. apply force_cancel_inv in H as (m & l & _ & _ & _ & x1 & bc & qc & y1 & y2 & i & h' & C & S & _). cbn zeta in *.
    apply (settled_spec _ _ _ _ _ _ _ _ _ _ _ _ _ _ _ _ OK C) in S as (H & _).
    refine (pots_change _ _ _ _ _ _ _ _ _ _ _ _ _ _ C1 C2 eq_refl eq_refl M (se_bpot _ _ _ _ _ _ _ _ _ _ _ _ H) (se_qpot _ _ _ _ _ _ _ _ _ _ _ _ H) _).
    unfold pot_ok. cbn [fst snd]. pose proof (pot_values_base _ _ _ _ O P0 Z0 (se_pot_base _ _ _ _ _ _ _ _ _ _ _ _ H)). pose proof (pot_values_quote _ _ _ _ O P0 Z0 (se_pot_quote _ _ _ _ _ _ _ _ _ _ _ _ H)). tauto.
Qed.
Lemma pot_run_match x y cb cq : 0 <= cb -> 0 <= cq -> pot_run x y -> pots_match x cb cq -> pots_match y cb cq.
Proof. intros C1 C2. induction 1 as [|x y z S R IH]; [auto|]. intros M. apply IH. exact (pot_step_match _ _ _ _ C1 C2 S M). Qed.
