From Coq Require Import List ZArith Lia Bool.
From Verif Require Import OrderTree Keys PerpTypes Interest Bank BankFacts BankSystem BankInv Health HealthSpec HealthFacts HealthMore LiqState
  TokenLiq TokenLiqSpec TokenLiqFacts TokenBankr TokenBankrSpec Fixed.
Import ListNotations.
Open Scope Z_scope.

(** after phase 2 the balance in health is at most the token balance *)
Lemma existsb_none {A} (f : A -> bool) l : existsb f l = false -> Forall (fun a => f a = false) l.
Proof. induction l as [|a l IH]; intros E; constructor; cbn [existsb] in E; apply orb_false_iff in E as [Ea El]; [exact Ea|apply IH; exact El]. Qed.
Lemma phase2_balance hc B Z i t : NoDup (map ti_index (hc_tokens hc)) -> flags_ok hc -> balances hc HLiqEnd false = Some B -> after_phase2 hc Z = true ->
  nth_error (hc_tokens hc) i = Some t -> nth i B 0 <= ti_spot t.
Proof.
  intros N (F1 & F2) HB HA Hi. unfold after_phase2, after_phase1 in HA.
  apply andb_true_iff in HA as [HA Ep]. apply andb_true_iff in HA as [HA _]. apply andb_true_iff in HA as [HA Eb]. apply andb_true_iff in HA as [HA _]. apply andb_true_iff in HA as [E1 E2].
  apply negb_true_iff in Ep, Eb, E1, E2. apply existsb_none in Ep, Eb, E1, E2.
  assert (HP : Forall (fun pi => hupnl pi HLiqEnd <= 0) (hc_perps hc)).
  { rewrite Forall_forall in *. intros pi Hpi. specialize (E2 pi Hpi). specialize (Ep pi Hpi). specialize (Eb pi Hpi). destruct (F2 pi Hpi E2) as [B0 A0]. cbn in Ep, Eb.
    apply negb_false_iff in Eb. rewrite Eb in Ep. cbn [andb] in Ep. apply Z.eqb_eq in Eb. apply Z.ltb_ge in Ep.
    unfold hupnl, uhupnl, execution_case. rewrite B0, A0, Eb. cbn [Z.add Z.opp Z.mul Z.ltb Z.compare]. change (of_int 0) with 0. cbn [Z.opp]. rewrite !fmul_0_l. cbn [Z.add Z.min Z.compare].
    rewrite Z.add_0_r. destruct (Z.ltb_spec 0 (pi_quote pi)); lia. }
  pose proof (balances_map _ _ _ N HB) as ->.
  assert (TB : forall u, token_balance (hc_perps hc) HLiqEnd u <= ti_spot u).
  { intros u. unfold token_balance. enough (sum (map (fun pi => if pi_settle pi =? ti_index u then hupnl pi HLiqEnd else 0) (hc_perps hc)) <= 0) by lia. clear -HP.
    induction HP as [|pi P H _ IH]; [reflexivity|]. cbn [map]. rewrite sum_cons. destruct (_ =? _); lia. }
  assert (X : nth_error (map (token_balance (hc_perps hc) HLiqEnd) (hc_tokens hc)) i = Some (token_balance (hc_perps hc) HLiqEnd t)) by (rewrite nth_error_map, Hi; reflexivity).
  rewrite (nth_error_nth _ _ _ X). apply TB.
Qed.


Lemma bankr_inv e s mx lf lok s' pay liab soc : bstate_ok e s -> token_liq_bankruptcy e s mx lf lok = Some (s', (pay, liab, soc)) ->
  exists B lb lb1 ib1 ee1 oi1 ol1 ex b0 h,
    lf = false /\ balances (bs_cache s) HLiqEnd false = Some B /\ after_phase2 (bs_cache s) (combine (hc_tokens (bs_cache s)) B) = true /\
    nth_error (bs_banks s) (bs_k s) = Some lb /\ native lb (bs_ee s) < 0 /\
    insurance_amounts e (- native lb (bs_ee s)) mx (bs_vault s) = Some (pay, liab, ex) /\
    (if 0 <? pay then insure e lb (bs_ins s) (bs_ee s) (bs_or_ins s) (bs_or_liab s) pay liab lok = Some (lb1, ib1, ee1, oi1, ol1)
     else lb1 = lb /\ ib1 = bs_ins s /\ ee1 = bs_ee s /\ oi1 = bs_or_ins s /\ ol1 = bs_or_liab s) /\
    (if 0 <? pay then True else native lb1 ee1 = native lb (bs_ee s)) /\
    (if ex && (0 <? - native lb1 ee1) then
       soc = - native lb1 ee1 /\ exists act, socialize (set_nth (bs_banks s) (bs_k s) lb1) (bs_k s) ee1 soc (be_now e) = Some (bs_banks s', bs_ee s', act)
     else soc = 0 /\ bs_banks s' = set_nth (bs_banks s) (bs_k s) lb1 /\ bs_ee s' = ee1) /\
    nth_error (bs_banks s') 0 = Some b0 /\
    adjust_token_balance (bs_cache s) (be_il e) (native b0 (bs_ee s') - native lb (bs_ee s)) (be_sw e) = Some (bs_cache s') /\
    Health.health (bs_cache s') HLiqEnd = Some h /\ bs_flag s' = recover true h /\
    bs_k s' = bs_k s /\ bs_ins s' = ib1 /\ bs_or_ins s' = oi1 /\ bs_or_liab s' = ol1 /\ bs_vault s' = bs_vault s - pay.
Proof.
  intros (ND & FO & (t & T1 & T2 & T3) & GB & GI & V0) H. unfold token_liq_bankruptcy in H.
  destruct lf; cbn [negb guard] in H; [discriminate|].
  destruct (balances (bs_cache s) HLiqEnd false) as [B|] eqn:EB; [|discriminate].
  destruct (after_phase2 _ _) eqn:AP; cbn [guard] in H; [|discriminate].
  destruct (nth_error (bs_banks s) (bs_k s)) as [lb|] eqn:Elb; [|discriminate].
  destruct (token_pos _ _) as [il|] eqn:Eil; [|discriminate].
  destruct (Z.ltb_spec (native lb (bs_ee s)) 0) as [HN|]; cbn [guard] in H; [|discriminate].
  destruct (Z.ltb_spec (nth il B 0) 0) as [HH|]; cbn [guard] in H; [|discriminate].
  assert (EL : Z.min (- native lb (bs_ee s)) (- nth il B 0) = - native lb (bs_ee s)).
  { apply Z.min_l. apply In_nth_error in T1 as [i Hi]. pose proof (token_pos_nth _ ND _ _ Hi) as P. rewrite T2, Eil in P. apply some_inj in P. subst i.
    pose proof (phase2_balance _ _ _ _ _ ND FO EB AP Hi) as Q. unfold debt in T3. rewrite Elb in T3. lia. }
  rewrite EL in H. destruct (insurance_amounts _ _ _ _) as [[[pay0 liab0] ex]|] eqn:EI; [|discriminate].
  destruct (Z.ltb_spec 0 pay0) as [HP|HP].
  - destruct (insure _ _ _ _ _ _ _ _ _) as [[[[[lb1 ib1] ee1] oi1] ol1]|] eqn:EN; [|discriminate].
    replace (- native lb (bs_ee s) - (native lb1 ee1 - native lb (bs_ee s))) with (- native lb1 ee1) in H by lia.
    destruct (ex && (0 <? - native lb1 ee1)) eqn:EX.
    + destruct (socialize _ _ _ _ _) as [[[bs1 p1] act]|] eqn:ES; [|discriminate].
      destruct (nth_error bs1 0) as [b0|] eqn:E0; [|discriminate]. destruct (adjust_token_balance _ _ _ _) as [hc1|] eqn:EA; [|discriminate].
      destruct (Health.health hc1 HLiqEnd) as [h|] eqn:Eh; [|discriminate]. apply some_inj in H. apply pair_equal_spec in H as [<- H].
      apply pair_equal_spec in H as [H <-]. apply pair_equal_spec in H as [<- <-]. cbn [bs_banks bs_ee bs_cache bs_flag bs_k bs_ins bs_or_ins bs_or_liab bs_vault].
      exists B, lb, lb1, ib1, ee1, oi1, ol1, ex, b0, h. rewrite (proj2 (Z.ltb_lt 0 pay0) HP), EX. do 6 (split; [first [reflexivity|assumption]|]).
      split; [exact EN|]. split; [exact I|]. split; [split; [reflexivity|exists act; exact ES]|]. auto 12.
    + destruct (nth_error (set_nth _ _ _) 0) as [b0|] eqn:E0; [|discriminate]. destruct (adjust_token_balance _ _ _ _) as [hc1|] eqn:EA; [|discriminate].
      destruct (Health.health hc1 HLiqEnd) as [h|] eqn:Eh; [|discriminate]. apply some_inj in H. apply pair_equal_spec in H as [<- H].
      apply pair_equal_spec in H as [H <-]. apply pair_equal_spec in H as [<- <-]. cbn [bs_banks bs_ee bs_cache bs_flag bs_k bs_ins bs_or_ins bs_or_liab bs_vault].
      exists B, lb, lb1, ib1, ee1, oi1, ol1, ex, b0, h. rewrite (proj2 (Z.ltb_lt 0 pay0) HP), EX. do 6 (split; [first [reflexivity|assumption]|]).
      split; [exact EN|]. split; [exact I|]. split; [auto|]. auto 12.
  - destruct (ex && (0 <? - native lb (bs_ee s))) eqn:EX.
    + destruct (socialize _ _ _ _ _) as [[[bs1 p1] act]|] eqn:ES; [|discriminate].
      destruct (nth_error bs1 0) as [b0|] eqn:E0; [|discriminate]. destruct (adjust_token_balance _ _ _ _) as [hc1|] eqn:EA; [|discriminate].
      destruct (Health.health hc1 HLiqEnd) as [h|] eqn:Eh; [|discriminate]. apply some_inj in H. apply pair_equal_spec in H as [<- H].
      apply pair_equal_spec in H as [H <-]. apply pair_equal_spec in H as [<- <-]. cbn [bs_banks bs_ee bs_cache bs_flag bs_k bs_ins bs_or_ins bs_or_liab bs_vault].
      exists B, lb, lb, (bs_ins s), (bs_ee s), (bs_or_ins s), (bs_or_liab s), ex, b0, h. rewrite (proj2 (Z.ltb_ge 0 pay0) HP), EX. do 6 (split; [first [reflexivity|assumption]|]).
      split; [auto|]. split; [reflexivity|]. split; [split; [reflexivity|exists act; exact ES]|]. auto 12.
    + destruct (nth_error (set_nth _ _ _) 0) as [b0|] eqn:E0; [|discriminate]. destruct (adjust_token_balance _ _ _ _) as [hc1|] eqn:EA; [|discriminate].
      destruct (Health.health hc1 HLiqEnd) as [h|] eqn:Eh; [|discriminate]. apply some_inj in H. apply pair_equal_spec in H as [<- H].
      apply pair_equal_spec in H as [H <-]. apply pair_equal_spec in H as [<- <-]. cbn [bs_banks bs_ee bs_cache bs_flag bs_k bs_ins bs_or_ins bs_or_liab bs_vault].
      exists B, lb, lb, (bs_ins s), (bs_ee s), (bs_or_ins s), (bs_or_liab s), ex, b0, h. rewrite (proj2 (Z.ltb_ge 0 pay0) HP), EX. do 6 (split; [first [reflexivity|assumption]|]).
      split; [auto|]. split; [reflexivity|]. split; [auto|]. auto 12.
Qed.

(** the amounts *)
Lemma price_spec e f : benv_ok e -> liab_to_insurance e = Some f -> 0 <= f -> f <> 0 -> insurance_price e f.
Proof.
  intros (P1 & P2 & P3) H F0 FN. unfold insurance_price. split; [lia|]. unfold liab_to_insurance in H. destruct (be_ins_price e) as [ip|]; [|apply some_inj in H; auto].
  specialize (P3 ip eq_refl). apply cdiv_inv in H as [-> _]. pose proof fone_pos as FP. 
  pose proof (fmul_bounds (be_price e) (fone + be_fee e)) as [M1 M2]. assert (M0 : 0 <= fmul (be_price e) (fone + be_fee e)) by (apply fmul_nonneg; lia).
  pose proof (BankFacts.fdiv_pos_bounds _ _ M0 P3) as [D0 [D1 D2]]. set (m := fmul _ _) in *. set (d := fdiv m ip) in *. clearbody m d.
  lia.
Qed.
Lemma amounts_inv e loss mx vault pay liab ex : benv_ok e -> 0 < loss -> 0 <= vault -> insurance_amounts e loss mx vault = Some (pay, liab, ex) ->
  let avail := if be_eligible e then vault else 0 in
  exists f, liab_to_insurance e = Some f /\ insurance_price e f /\ 0 <= pay <= avail /\ ex = (pay =? avail) /\
    (pay * fone - fone < fmul (Z.min loss mx) f) /\ (pay < avail -> fmul (Z.min loss mx) f <= pay * fone) /\
    0 <= liab /\ liab * f <= pay * fone * fone < liab * f + f.
Proof.
  intros K L0 V0 H. unfold insurance_amounts in H. destruct (liab_to_insurance e) as [f|] eqn:Ef; [|discriminate].
  set (avail := if be_eligible e then vault else 0) in *. set (c := ceil_int _) in *.
  destruct ((0 <=? c) && (c <? 2 ^ 64)) eqn:G; cbn [guard] in H; [|discriminate]. apply andb_prop in G as [G _]. apply Z.leb_le in G.
  destruct (cdiv _ _) as [l|] eqn:EC; [|discriminate]. apply some_inj in H. apply pair_equal_spec in H as [H <-]. apply pair_equal_spec in H as [<- <-].
  apply cdiv_inv in EC as [-> FN]. assert (F0 : 0 <= f).
  { unfold liab_to_insurance in Ef. destruct K as (K1 & K2 & K3). destruct (be_ins_price e) as [ip|]; [|apply some_inj in Ef; subst f; pose proof fone_pos; lia].
    specialize (K3 ip eq_refl). apply cdiv_inv in Ef as [-> _]. apply fdiv_nonneg; [|exact K3]. apply fmul_nonneg; pose proof fone_pos; lia. }
  cbn zeta. exists f. split; [reflexivity|]. split; [apply price_spec; assumption|].
  assert (A0 : 0 <= avail) by (unfold avail; destruct (be_eligible e); lia). split; [lia|]. split; [reflexivity|].
  pose proof (ceil_int_bounds (fmul (Z.min loss mx) f)) as [C1 C2]. fold c in C1, C2. unfold of_int in *. pose proof fone_pos as FP.
  split; [nia|]. split; [intros Q; rewrite Z.min_l in * by lia; lia|].
  assert (X1 : 0 <= Z.min c avail * fone) by nia. assert (X2 : 0 < f) by lia. pose proof (BankFacts.fdiv_pos_bounds _ _ X1 X2) as [D0 [D1 D2]]. lia.
Qed.

Lemma fine_index b : bank_fine b -> index_ok b /\ 0 <= b_lof b. Proof. intros (A & B & C). split; [split|]; assumption. Qed.
Lemma moved_fine b b' p p' : moved b b' p p' -> bank_fine b -> bank_fine b'.
Proof. intros M (A & B & C). unfold bank_fine. rewrite (mv_di _ _ _ _ M), (mv_bi _ _ _ _ M), (mv_lof _ _ _ _ M). auto. Qed.
Lemma dusting_deposit b p x now b' p' act : index_ok b -> deposit_with_dusting b p x now = Some (b', p', act) ->
  0 <= x /\ moved b b' p p' /\ kept b b' p p' x /\ x - fone - 2 < native b' p' - native b p < x + ix_round b /\ t_ix p <= t_ix p'.
Proof.
  intros Hok H. unfold deposit_with_dusting in H. destruct (deposit_internal b p x true now) as [[[b1 p1] a1]|] eqn:E; [|discriminate].
  apply some_inj in H. apply pair_equal_spec in H as [H _]. apply pair_equal_spec in H as [<- <-].
  apply deposit_spec in E; [|exact Hok]. destruct E as (E0 & M & Ef & E1 & E2 & E3 & E4 & E5 & _).
  split; [exact E0|]. split; [exact M|]. split; [unfold kept; rewrite Ef; lia|]. split; [|exact E1].
  assert (D : - b_bi b - fone < (b_dust b1 - b_dust b) * fone /\ b_dust b1 - b_dust b < fone).
  { destruct a1; [rewrite E2 by reflexivity; destruct Hok; pose proof fone_pos; lia|]. destruct (E3 eq_refl) as (_ & _ & _ & X1 & X2 & X3). rewrite X1. split; [lia|]. lia. }
  pose proof (native_bounds b1 p1) as [N1 N2]. rewrite (moved_pv _ _ _ _ _ M) in N1, N2. pose proof (native_bounds b p) as [N3 N4].
  pose proof (ix_round_bound b Hok) as IR. pose proof fone_pos as FP. set (r := ix_round b) in *. set (m := Z.max (b_di b) (b_bi b)) in *.
  assert (b_bi b <= m) by (unfold m; lia). set (d := b_dust b1 - b_dust b) in *. clearbody r m d. destruct D as [D1 D2].
  set (n1 := native b1 p1) in *. set (n0 := native b p) in *. clearbody n1 n0. clear - D1 D2 N1 N2 N3 N4 IR FP E4 E5 H. split; nia.
Qed.
Lemma plain_deposit b p x now b' p' act : index_ok b -> deposit b p x now = Some (b', p', act) ->
  moved b b' p p' /\ kept b b' p p' x /\ x - fone - 2 < native b' p' - native b p < x + ix_round b.
Proof.
  intros Hok E. unfold deposit in E.
  apply deposit_spec in E; [|exact Hok]. destruct E as (E0 & M & Ef & E1 & E2 & E3 & E4 & E5 & _).
  split; [exact M|]. split; [unfold kept; rewrite Ef; lia|].
  assert (D : - b_bi b - fone < (b_dust b' - b_dust b) * fone /\ b_dust b' - b_dust b < fone).
  { destruct act; [rewrite E2 by reflexivity; destruct Hok; pose proof fone_pos; lia|]. destruct (E3 eq_refl) as (_ & _ & _ & X1 & X2 & X3). rewrite X1. split; [lia|]. lia. }
  pose proof (native_bounds b' p') as [N1 N2]. rewrite (moved_pv _ _ _ _ _ M) in N1, N2. pose proof (native_bounds b p) as [N3 N4].
  pose proof (ix_round_bound b Hok) as IR. pose proof fone_pos as FP. set (r := ix_round b) in *. set (m := Z.max (b_di b) (b_bi b)) in *.
  assert (b_bi b <= m) by (unfold m; lia). set (d := b_dust b' - b_dust b) in *. clearbody r m d. destruct D as [D1 D2].
  set (n1 := native b' p') in *. set (n0 := native b p) in *. clearbody n1 n0. clear - D1 D2 N1 N2 N3 N4 IR FP E4 E5 H. split; nia.
Qed.
Lemma fee_withdraw b p x now b' p' r : index_ok b -> 0 <= b_lof b -> withdraw_with_fee b p x now = Some (b', p', r) ->
  let fee := fmul (b_lof b) (Z.max 0 (x - Z.max (native b p) 0)) in
  moved b b' p p' /\ kept b b' p p' (- x) /\ b_fees b' = b_fees b + fee /\ - (x + fee) - fone - 2 < native b' p' - native b p < - (x + fee) + ix_round b.
Proof.
  intros Hok Hl H fee. unfold withdraw_with_fee in H. apply withdraw_spec in H; [|exact Hok|exact Hl].
  destruct H as (E0 & M & E1 & E2 & E3 & E4 & _ & E5 & E6 & E7 & E8 & _). split; [exact M|]. split; [unfold kept; lia|].
  assert (WF : w_fee r = fee).
  { rewrite E4. unfold to_borrow, fee. cbn [andb]. set (q := x - Z.max _ 0). destruct (Z.ltb_spec 0 q); [rewrite Z.max_r by lia; reflexivity|rewrite Z.max_l by lia; rewrite fmul_0_r; reflexivity]. }
  rewrite WF in *. split; [exact E3|].
  assert (D : 0 <= b_dust b' - b_dust b < fone). { pose proof fone_pos. destruct (w_active r); [rewrite E5 by reflexivity; lia|]. destruct (E6 eq_refl) as (_ & _ & _ & X1 & X2 & _). lia. }
  pose proof (native_bounds b' p') as [N1 N2]. rewrite (moved_pv _ _ _ _ _ M) in N1, N2. pose proof (native_bounds b p) as [N3 N4].
  pose proof (ix_round_bound b Hok) as IR. pose proof fone_pos as FP. set (rr := ix_round b) in *. set (m := Z.max (b_di b) (b_bi b)) in *.
  set (d := b_dust b' - b_dust b) in *. assert (0 <= m) by (unfold m; destruct Hok; lia). clearbody rr m d fee. destruct D as [D1 D2].
  set (n1 := native b' p') in *. set (n0 := native b p) in *. clearbody n1 n0. clear - D1 D2 N1 N2 N3 N4 IR FP E7 E8 H. split; nia.
Qed.
Lemma native_same b b' p : b_di b' = b_di b -> b_bi b' = b_bi b -> native b' p = native b p.
Proof. intros H1 H2. unfold native. rewrite H1, H2. reflexivity. Qed.
Lemma one_move b b' p p' x q : moved b b' p p' -> kept b b' p p' x ->
  bank_moved b b' p p' q q /\ - fone < two_claims b' p' q - two_claims b p q - x * fone < Z.max (b_di b) (b_bi b).
Proof.
  intros M K. split.
  - unfold bank_moved. destruct M. repeat (split; [first [lia|assumption|reflexivity]|]). assumption.
  - unfold kept in K. unfold two_claims. rewrite !(moved_claim _ _ _ _ _ M), !claim_pv. lia.
Qed.

(** the insurance payment *)
Lemma insure_spec e lb ib ee oi ol pay liab lok lb1 ib1 ee1 oi1 ol1 : bank_fine lb -> bank_fine ib ->
  insure e lb ib ee oi ol pay liab lok = Some (lb1, ib1, ee1, oi1, ol1) ->
  bank_fine lb1 /\ bank_moved lb lb1 ee ee1 ol ol1 /\ t_ix ee <= t_ix ee1 /\
  (liab - fone - 2 < native lb1 ee1 - native lb ee < liab + ix_round lb) /\
  match be_ins_price e with
  | Some _ =>
      (- 2 * fone < two_claims lb1 ee1 ol1 - two_claims lb ee ol < 2 * Z.max (b_di lb) (b_bi lb)) /\
      bank_moved ib ib1 oi oi1 (mkTpos 0 0) (mkTpos 0 0) /\
      (- fone < two_claims ib1 oi1 (mkTpos 0 0) - two_claims ib oi (mkTpos 0 0) - of_int pay * fone < Z.max (b_di ib) (b_bi ib)) /\
      (of_int pay - fone - 2 < native ib1 oi1 - native ib oi < of_int pay + ix_round ib) /\
      (let fee := fmul (b_lof lb) (Z.max 0 (liab - Z.max (native lb ol) 0)) in
       b_fees lb1 = b_fees lb + fee /\ - (liab + fee) - fone - 2 < native lb1 ol1 - native lb ol < - (liab + fee) + ix_round lb) /\
      lok lb1 ib1 ol1 oi1 = true
  | None => ib1 = ib /\ oi1 = oi /\ ol1 = ol /\ liab = of_int pay /\ b_fees lb1 = b_fees lb /\
      (- fone < two_claims lb1 ee1 ol1 - two_claims lb ee ol - of_int pay * fone < Z.max (b_di lb) (b_bi lb))
  end.
Proof.
  intros FL FI H. unfold insure in H. destruct (fine_index _ FL) as [IL LL]. destruct (fine_index _ FI) as [II LI].
  destruct (deposit_with_dusting lb ee liab _) as [[[lb0 ee0] a0]|] eqn:E1; [|discriminate].
  pose proof E1 as E1'. apply dusting_deposit in E1 as (X0 & M1 & K1 & D1 & T1); [|exact IL]. pose proof (moved_fine _ _ _ _ M1 FL) as F1. destruct (fine_index _ F1) as [I1 L1].
  assert (FE : b_fees lb0 = b_fees lb).
  { unfold deposit_with_dusting in E1'. destruct (deposit_internal _ _ _ true _) as [[[b1 p1] a1]|] eqn:E; [|discriminate].
    apply some_inj in E1'. apply pair_equal_spec in E1' as [E1' _]. apply pair_equal_spec in E1' as [<- <-]. apply deposit_spec in E; [|exact IL]. apply E. }
  destruct (be_ins_price e) as [ip|].
  - destruct (deposit ib oi _ _) as [[[ib0 oi0] a1]|] eqn:E2; [|discriminate]. destruct (withdraw_with_fee lb0 ol liab _) as [[[lb2 ol0] w]|] eqn:E3; [|discriminate].
    destruct (lok lb2 ib0 ol0 oi0) eqn:E4; cbn [guard] in H; [|discriminate]. apply some_inj in H.
    do 4 (apply pair_equal_spec in H as [H ?]). subst lb2 ib0 ee0 oi0 ol0.
    apply plain_deposit in E2 as (M2 & K2 & D2); [|exact II]. apply fee_withdraw in E3; [|assumption..]. cbn zeta in E3. destruct E3 as (M3 & K3 & D3 & D4).
    split; [exact (moved_fine _ _ _ _ M3 F1)|]. destruct (two_moves _ _ _ _ _ _ _ _ _ M1 K1 M3 K3) as [T2 T3]. split; [exact T2|]. split; [exact T1|].
    assert (N1 : native lb1 ee1 = native lb0 ee1) by (apply native_same; [exact (mv_di _ _ _ _ M3)|exact (mv_bi _ _ _ _ M3)]).
    assert (N2 : native lb0 ol = native lb ol) by (apply native_same; [exact (mv_di _ _ _ _ M1)|exact (mv_bi _ _ _ _ M1)]).
    assert (N3 : ix_round lb0 = ix_round lb) by (unfold ix_round; rewrite (mv_di _ _ _ _ M1), (mv_bi _ _ _ _ M1); reflexivity).
    rewrite N1. split; [exact D1|]. split; [rewrite Z.add_opp_diag_r in T3; lia|].
    destruct (one_move _ _ _ _ _ (mkTpos 0 0) M2 K2) as [Q1 Q2]. split; [exact Q1|]. split; [exact Q2|]. split; [exact D2|].
    rewrite N2, N3, (mv_lof _ _ _ _ M1), FE in *. cbn zeta. auto.
  - destruct (Z.eqb_spec (of_int pay) liab) as [EQ|]; cbn [guard] in H; [|discriminate]. apply some_inj in H.
    do 4 (apply pair_equal_spec in H as [H ?]). subst lb0 ib1 ee0 oi1 ol1. destruct (one_move _ _ _ _ _ ol M1 K1) as [Q1 Q2].
    split; [exact F1|]. split; [exact Q1|]. split; [exact T1|]. split; [exact D1|]. rewrite EQ. auto 8.
Qed.

(** putting the loss on the depositors *)
Definition touched (ndi : fx) (b b' : bank) : Prop := b_bi b' = b_bi b /\ (b_di b' = ndi \/ b' = b).
Lemma credit_shape banks ndi p left act now banks' p' act' : 0 < ndi -> (forall b, In b banks -> bank_fine b) ->
  credit_banks banks ndi p left act now = Some (banks', p', act') ->
  Forall2 (touched ndi) banks banks' /\
  (match banks, banks' with b :: _, b' :: _ => b_di b' = ndi | _, _ => True end) /\
  sum_z b_dep banks' - sum_z b_dep banks = Z.max (t_ix p') 0 - Z.max (t_ix p) 0 /\
  sum_z b_bor banks' - sum_z b_bor banks = Z.max (- t_ix p') 0 - Z.max (- t_ix p) 0.
Proof.
  intros Hn. revert p left act banks' p' act'.
  induction banks as [|b rest IH]; intros p left act banks' p' act' Hg H; cbn [credit_banks] in H.
  - injection H as <- <- <-. split; [constructor|]. split; [exact I|]. lia.
  - set (b0 := set_index b ndi (b_bi b) (b_fees b) (b_upd b)) in *.
    assert (Hg0 : bank_fine b0).
    { destruct (Hg b (or_introl eq_refl)) as (A1 & A2 & A3). unfold bank_fine. cbn [b0 set_index b_di b_bi b_lof]. auto. }
    assert (Hgr : forall x, In x rest -> bank_fine x) by (intros; apply Hg; right; assumption).
    assert (RF : forall l, Forall2 (touched ndi) l l) by (induction l; constructor; [split; auto|assumption]).
    destruct (0 <? Z.min left (native_borrows b0)).
    + destruct (deposit_with_dusting b0 p _ now) as [[[b1 p1] a1]|] eqn:E; [|discriminate].
      apply dusting_deposit in E as (_ & M & _); [|apply fine_index; exact Hg0].
      pose proof (mv_dep _ _ _ _ M) as M1. pose proof (mv_bor _ _ _ _ M) as M2. change (b_dep b0) with (b_dep b) in M1. change (b_bor b0) with (b_bor b) in M2.
      assert (T : touched ndi b b1) by (split; [rewrite (mv_bi _ _ _ _ M)|left; rewrite (mv_di _ _ _ _ M)]; reflexivity).
      destruct (left - _ <=? 0).
      * injection H as <- <- <-. split; [constructor; [exact T|apply RF]|]. split; [rewrite (mv_di _ _ _ _ M); reflexivity|].
        cbn [sum_z fold_right]. fold (sum_z b_dep rest) (sum_z b_bor rest). lia.
      * destruct (credit_banks rest ndi p1 _ a1 now) as [[[rest' p2] a2]|] eqn:E2; [|discriminate].
        injection H as <- <- <-. apply IH in E2; [|exact Hgr]. destruct E2 as (G & _ & S1 & S2).
        split; [constructor; [exact T|exact G]|]. split; [rewrite (mv_di _ _ _ _ M); reflexivity|].
        cbn [sum_z fold_right]. fold (sum_z b_dep rest) (sum_z b_bor rest) (sum_z b_dep rest') (sum_z b_bor rest'). lia.
    + destruct (credit_banks rest ndi p _ act now) as [[[rest' p2] a2]|] eqn:E2; [|discriminate].
      injection H as <- <- <-. apply IH in E2; [|exact Hgr]. destruct E2 as (G & _ & S1 & S2).
      split; [constructor; [split; [reflexivity|left; reflexivity]|exact G]|]. split; [reflexivity|].
      cbn [sum_z fold_right]. fold (sum_z b_dep rest) (sum_z b_bor rest) (sum_z b_dep rest') (sum_z b_bor rest').
      change (b_dep b0) with (b_dep b). change (b_bor b0) with (b_bor b). lia.
Qed.
Lemma set_nth_nth {A} (l : list A) : forall k j x, nth_error (set_nth l k x) j = if (k =? j)%nat then match nth_error l j with Some _ => Some x | None => None end else nth_error l j.
Proof.
  induction l as [|a l IH]; intros [|k] [|j] x; cbn [set_nth nth_error Nat.eqb]; try reflexivity; [destruct (k =? j)%nat; reflexivity|apply IH].
Qed.

Lemma dusting_di b p x now b' p' act : deposit_with_dusting b p x now = Some (b', p', act) -> b_di b' = b_di b.
Proof.
  unfold deposit_with_dusting, deposit_internal. destruct (guard _); [|discriminate]. destruct (native b p <? 0).
  - destruct (update_net_borrows _ _ _) as [b1|] eqn:U; [|discriminate]. pose proof (unb_window _ _ _ _ U) as (ws & wn & ->).
    destruct (div_rounding_up _ _) as [c|]; [|discriminate]. destruct (_ <? 0); [intros H; apply some_inj in H; apply pair_equal_spec in H as [H _]; apply pair_equal_spec in H as [<- _]; reflexivity|].
    destruct (_ && _); [intros H; apply some_inj in H; apply pair_equal_spec in H as [H _]; apply pair_equal_spec in H as [<- _]; reflexivity|].
    unfold add_deposits. destruct (div_rounding_up _ _) as [c2|]; [|discriminate]. intros H; apply some_inj in H; apply pair_equal_spec in H as [H _]; apply pair_equal_spec in H as [<- _]; reflexivity.
  - unfold add_deposits. destruct (div_rounding_up _ _) as [c2|]; [|discriminate]. intros H; apply some_inj in H; apply pair_equal_spec in H as [H _]; apply pair_equal_spec in H as [<- _]; reflexivity.
Qed.
Lemma credit_head b rest ndi p left act now banks' p' act' : credit_banks (b :: rest) ndi p left act now = Some (banks', p', act') ->
  exists b', nth_error banks' 0 = Some b' /\ b_di b' = ndi.
Proof.
  cbn [credit_banks]. set (b0 := set_index b ndi (b_bi b) (b_fees b) (b_upd b)). destruct (0 <? _).
  - destruct (deposit_with_dusting b0 p _ now) as [[[b1 p1] a1]|] eqn:E; [|discriminate]. apply dusting_di in E.
    destruct (_ <=? 0); [intros H; injection H as <- _ _; exists b1; auto|]. destruct (credit_banks _ _ _ _ _ _) as [[[r2 p2] a2]|]; [|discriminate]. intros H; injection H as <- _ _; exists b1; auto.
  - destruct (credit_banks _ _ _ _ _ _) as [[[r2 p2] a2]|]; [|discriminate]. intros H; injection H as <- _ _; exists b0; auto.
Qed.

(** with one bank, socializing the whole borrow of a position always works *)
Lemma socialize_live b p now : bank_fine b -> fone <= b_bi b -> 0 < b_dep b -> t_ix p < 0 -> - t_ix p <= b_bor b ->
  (forall x, x <= 0 -> exists b', update_net_borrows (set_index b (b_di b - fdiv (- native b p) (b_dep b)) (b_bi b) (b_fees b) (b_upd b)) x now = Some b') ->
  0 < - native b p -> 0 < Z.min (- native b p) (native_borrows b) ->
  exists b' p' act, socialize [b] 0 p (- native b p) now = Some ([b'], p', act) /\ t_ix p' = 0.
Proof.
  intros (D & BI & LO) B1 DP TN BO UN L0 AM. unfold socialize. rewrite (proj2 (Z.ltb_lt _ _) L0). cbn [guard nth_error sum_z fold_right].
  rewrite Z.add_0_r. unfold cdiv. destruct (Z.eqb_spec (b_dep b) 0); [lia|]. cbn [credit_banks].
  set (q := fdiv (- native b p) (b_dep b)) in *. set (b0 := set_index b (b_di b - q) (b_bi b) (b_fees b) (b_upd b)) in *.
  assert (NB : native_borrows b0 = native_borrows b) by reflexivity. rewrite NB. set (x := Z.min _ _) in *. rewrite (proj2 (Z.ltb_lt _ _) AM).
  assert (N0 : native b0 p = native b p). { unfold native, b0. cbn [set_index b_di b_bi]. rewrite (proj2 (Z.ltb_ge _ _)) by lia. reflexivity. }
  assert (X : exists b1, deposit_with_dusting b0 p x now = Some (b1, mkTpos 0 (t_use p), false || in_use (mkTpos 0 (t_use p)))).
  { unfold deposit_with_dusting, deposit_internal. rewrite (proj2 (Z.leb_le _ _) (Z.lt_le_incl _ _ AM)). cbn [guard]. rewrite N0. rewrite (proj2 (Z.ltb_lt (native b p) 0)) by lia.
    destruct (UN (Z.max (native b p) (- x)) ltac:(lia)) as [b2 U]. rewrite U.
    pose proof (unb_window _ _ _ _ U) as (ws & wn & Eb). assert (BB : b_bi b2 = b_bi b) by (rewrite Eb; reflexivity). rewrite BB.
    destruct (dru_some x (b_bi b) BI) as [c C]. rewrite C. destruct (dru_bounds x _ c ltac:(lia) BI C) as (C0 & C1 & C2).
    assert (NX : 0 <= t_ix p + c).
    { pose proof (native_bounds b p) as [Q1 Q2]. unfold pv in Q1, Q2. rewrite (proj2 (Z.ltb_ge 0 (t_ix p))) in Q1, Q2 by lia.
      unfold native_borrows in x. pose proof (fmul_bounds (b_bi b) (b_bor b)) as [F1 F2]. pose proof fone_pos as FP.
      assert (XB : (- t_ix p) * b_bi b - fone < x * fone). { unfold x. destruct (Z.min_spec (- native b p) (fmul (b_bi b) (b_bor b))) as [[_ ->]|[_ ->]]; nia. }
      nia. }
    rewrite (proj2 (Z.ltb_ge _ _) NX). assert (NN : native b p + x < fone) by (pose proof fone_pos; unfold x; lia). rewrite (proj2 (Z.ltb_lt _ _) NN). cbn [andb].
    eexists. reflexivity. }
  destruct X as [b1 X]. rewrite X. destruct (_ <=? 0); cbn [t_ix]; rewrite Z.eqb_refl; cbn [guard]; do 3 eexists; split; reflexivity.
Qed.
