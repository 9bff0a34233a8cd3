(** C97: settling the fees of a perp market, the instruction as a whole. *)
From Coq Require Import List ZArith Lia Bool Arith.
From Verif Require Import OrderTree Keys PerpTypes SettleLimit SettleSpec SettleFacts PropSettle Interest InterestFacts Bank BankSpec BankFacts BankInv BankResults Health HealthSpec HealthDiv HealthFacts HealthMore HealthSkip LiqState
  TokenLiq TokenLiqSpec TokenLiqFacts SerumCache PerpLiqBase PerpLiqBaseSpec PerpLiqBaseFacts PerpLiqBaseIx PerpLiqNegSpec PerpLiqNegFacts PropPerpLiqNeg Scaling ScalingFacts TokenMove TokenMoveFacts PropTokenMove
  PropInterest PropBank PropHealth PropTokenLiq PropPerpLiqBase SettleIx SettleIxFacts PropSettleIx SettleFeesIx Fixed.
Import ListNotations.
Open Scope Z_scope.

Record paid (e : senv) (b : bank) (a : sacct) (fees : fx) (o : fout) (l : limits) (p : position) : Prop := {
  pd_has : has_positions e a = true;
  pd_tok : exists act, withdraw_without_fee b (sa_tok a) (fo_amount o) (xe_now e) = Some (fo_bank o, sa_tok (fo_acct o), act);
  pd_acct : fo_acct o = with_settled a (p, l) (sa_tok (fo_acct o));
  pd_fees : fo_fees o = fees + fo_amount o;
  pd_health : exists hc h, acct_cache (with_market e (fo_mk o)) (fo_bank o) (fo_acct o) = Some hc /\ health hc HInit = Some h /\ 0 <= h }.
Lemma fees_inv e b a fees mx o : perp_settle_fees e b a fees mx = Some o ->
  In (mk_index (xe_mk e)) (map pi_market (sa_P a)) /\
  exists p l, settle_fees (xe_mk e) (xe_sc e) (sa_perp a) (sa_lim a) (xe_price e) mx = Some (p, l, fo_mk o, fo_amount o) /\
    (fo_amount o = 0 -> fo_bank o = b /\ fo_fees o = fees /\ fo_acct o = with_settled a (p, l) (sa_tok a)) /\
    (fo_amount o <> 0 -> paid e b a fees o l p).
Proof.
  unfold perp_settle_fees. destruct (existsb _ (sa_P a)) eqn:HP; cbn [guard]; [|discriminate].
  destruct (settle_fees _ _ _ _ _ _) as [[[[p l] mk] s]|] eqn:S; [|discriminate]. intros H.
  split; [apply existsb_exists in HP as (pi & I & E); apply Z.eqb_eq in E; rewrite <- E; apply in_map, I|].
  exists p, l. destruct (Z.eqb_spec s 0) as [->|N].
  - apply some_inj in H. subst o. cbn [fo_mk fo_amount fo_bank fo_fees fo_acct]. split; [reflexivity|]. split; [auto|]. intros Q. destruct (Q eq_refl).
  - destruct (existsb _ (sa_L a)) eqn:HL; cbn [guard] in H; [|discriminate]. destruct (withdraw_without_fee _ _ _ _) as [[[b' t] act]|] eqn:W; [|discriminate].
    destruct (acct_cache _ _ _) as [hc|] eqn:C; [|discriminate]. destruct (health hc HInit) as [h|] eqn:Hh; [|discriminate].
    destruct (Z.leb_spec 0 h); cbn [guard] in H; [|discriminate]. apply some_inj in H. subst o. cbn [fo_mk fo_amount fo_bank fo_fees fo_acct]. split; [reflexivity|]. split; [intros Q; contradiction|].
    intros _. constructor; cbn [fo_mk fo_amount fo_bank fo_fees fo_acct with_settled sa_tok]; [unfold has_positions; rewrite HL, HP; reflexivity|exists act; exact W|reflexivity|reflexivity|exists hc, h; auto].
Qed.
Lemma settle_fees_pos mk c p l price mx p' l' mk' s : settle_fees mk c p l price mx = Some (p', l', mk', s) ->
  (s = 0 /\ p' = settle_funding p mk /\ l' = l /\ mk' = mk) \/ (s <> 0 /\ (exists y, p' = add_quote (settle_funding p mk) s y) /\ mk' = with_fees mk (mk_fees_accrued mk - s)).
Proof.
  unfold settle_fees. destruct (mx =? 0) eqn:MX; [discriminate|]. destruct (_ || _) eqn:G; intros H.
  - apply some_inj in H. do 3 apply pair_equal_spec in H as [H ?]. left. subst. auto.
  - destruct (record_settle _ _ _ _ _) as [q ql] eqn:R in H. apply some_inj in H. do 3 apply pair_equal_spec in H as [H ?]. subst. right.
    apply orb_false_iff in G as [G1 G2]. apply Z.eqb_neq in MX. apply negb_false_iff, Z.ltb_lt in G1, G2. split; [pose proof fone_pos; unfold of_int; nia|]. split; [|reflexivity].
    match type of R with record_settle ?P ?l ?m ?c ?d = _ => destruct (record_settle_pos P l m c d) as [y Y]; exists y end. rewrite R, Z.opp_involutive in Y. exact Y.
Qed.

(** ** amounts *)
(** Only a losing position pays: at most its loss, the fees the market has accrued, and what the caller asks for.  What is paid moves
    from the accrued to the settled fees of the market and raises the position's quote; nothing else of account and market changes,
    but the settle token balance and the settle limit. *)
Theorem C97_amounts : forall e b a fees mx o, perp_settle_fees e b a fees mx = Some o -> 0 <= mx ->
  let s := fo_amount o in
  0 < mx /\ 0 <= s <= of_int mx /\
  (0 < s -> s <= - pnl_at (xe_mk e) (sa_perp a) (xe_price e) /\ s <= mk_fees_accrued (xe_mk e)) /\
  fo_fees o = fees + s /\ fo_mk o = with_fees (xe_mk e) (mk_fees_accrued (xe_mk e) - s) /\
  p_quote (sa_perp (fo_acct o)) = p_quote (sa_perp a) - unsettled_funding (sa_perp a) (xe_mk e) + s /\ same_pos (sa_perp a) (sa_perp (fo_acct o)) /\
  (s = 0 -> fo_bank o = b /\ sa_tok (fo_acct o) = sa_tok a /\ sa_lim (fo_acct o) = sa_lim a) /\
  (sa_L (fo_acct o), sa_O (fo_acct o), sa_P (fo_acct o)) = (sa_L a, sa_O a, sa_P a).
Proof.
  intros e b a fees mx o H M. apply fees_inv in H as (_ & p & l & S & Z0 & PD). pose proof (C20_settle_fees _ _ _ _ _ _ _ _ _ _ S M) as (S1 & S2 & S3 & S4 & _ & _ & S5). cbv zeta.
  assert (MX : 0 < mx) by (unfold settle_fees in S; destruct (Z.eqb_spec mx 0); [discriminate|lia]). split; [exact MX|]. split; [lia|].
  split; [intros Q; destruct (S5 Q) as (A & B & _); lia|].
  assert (MK : fo_mk o = with_fees (xe_mk e) (mk_fees_accrued (xe_mk e) - fo_amount o)).
  { destruct (settle_fees_pos _ _ _ _ _ _ _ _ _ _ S) as [(E & _ & _ & ->)|(_ & _ & E)]; [|exact E]. rewrite E, Z.sub_0_r. destruct (xe_mk e). reflexivity. }
  assert (SP : same_pos (sa_perp a) p).
  { destruct (settle_fees_pos _ _ _ _ _ _ _ _ _ _ S) as [(_ & -> & _)|(_ & (y & ->) & _)]; unfold same_pos; auto 6. }
  assert (LM : fo_amount o = 0 -> l = sa_lim a) by (intros E; destruct (settle_fees_pos _ _ _ _ _ _ _ _ _ _ S) as [(_ & _ & -> & _)|(N & _)]; [reflexivity|contradiction]).
  destruct (Z.eq_dec (fo_amount o) 0) as [E|N].
  - destruct (Z0 E) as (Eb & Ef & Ea). rewrite Ea. cbn [with_settled sa_perp sa_tok sa_lim sa_L sa_O sa_P fst snd]. split; [lia|]. split; [exact MK|]. split; [lia|]. split; [exact SP|]. split; [auto|reflexivity].
  - destruct (PD N) as [_ _ Ea Ef _]. split; [exact Ef|]. split; [exact MK|]. rewrite Ea. cbn [with_settled sa_perp sa_tok sa_lim sa_L sa_O sa_P fst snd]. split; [exact S3|]. split; [exact SP|]. split; [intros Q; contradiction|reflexivity].
Qed.
Print Assumptions C97_amounts.

(** The account pays in settle tokens, up to rounding; the totals of the bank change as its position does, no loan fee is charged. *)
Theorem C97_tokens : forall e b a fees mx o, perp_settle_fees e b a fees mx = Some o -> 0 < fo_amount o ->
  settle_bank_ok b -> 0 < t_use (sa_tok a) ->
  - fo_amount o - 2 < native (fo_bank o) (sa_tok (fo_acct o)) - native b (sa_tok a) < - fo_amount o + ix_round b /\
  b_fees (fo_bank o) = b_fees b /\ b_dust (fo_bank o) = b_dust b /\ b_di (fo_bank o) = b_di b /\ b_bi (fo_bank o) = b_bi b /\
  b_dep (fo_bank o) - b_dep b = Z.max (t_ix (sa_tok (fo_acct o))) 0 - Z.max (t_ix (sa_tok a)) 0 /\
  b_bor (fo_bank o) - b_bor b = Z.max (- t_ix (sa_tok (fo_acct o))) 0 - Z.max (- t_ix (sa_tok a)) 0.
Proof.
  intros e b a fees mx o H S0 (D & B & LO) U. apply fees_inv in H as (_ & p & l & S & _ & PD). destruct (PD ltac:(lia)) as [_ (act & W) _ _ _].
  apply withdraw_native in W as (N & M & F & DU); [|split; assumption|exact LO|exact U]. split; [exact N|]. split; [exact F|]. split; [exact DU|].
  split; [apply (mv_di _ _ _ _ M)|]. split; [apply (mv_bi _ _ _ _ M)|]. split; [rewrite (mv_dep _ _ _ _ M); lia|rewrite (mv_bor _ _ _ _ M); lia].
Qed.
Print Assumptions C97_tokens.

(** ** health *)
(** If anything was paid, initial health is not negative afterwards, with every oracle usable. *)
Theorem C97_check : forall e b a fees mx o, perp_settle_fees e b a fees mx = Some o -> fo_amount o <> 0 ->
  exists hc h, acct_cache (with_market e (fo_mk o)) (fo_bank o) (fo_acct o) = Some hc /\ health hc HInit = Some h /\ 0 <= h.
Proof.
  intros e b a fees mx o H N. apply fees_inv in H as (_ & p & l & _ & _ & PD). exact (pd_health _ _ _ _ _ _ _ (PD N)).
Qed.
Print Assumptions C97_check.

Lemma cache_market e mk b a : (forall p pr, perp_info (with_market e mk) p pr = perp_info e p pr) -> mk_index mk = mk_index (xe_mk e) ->
  acct_cache (with_market e mk) b a = acct_cache e b a.
Proof.
  intros E I. unfold acct_cache. cbn [with_market xe_cfg]. destruct (positions_with _ _ _ _) as [L|]; [|reflexivity]. f_equal.
  unfold perps_with. cbn [with_market xe_mk]. rewrite I. apply map_ext. intros pi. destruct (_ =? _); [apply E|reflexivity].
Qed.
Lemma info_fees e x p pr : perp_info (with_market e (with_fees (xe_mk e) x)) p pr = perp_info e p pr.
Proof. reflexivity. Qed.

(** Paying fees changes no kind of health, but for rounding: what the account pays it no longer owes. *)
Theorem C97_health : forall e b a fees mx o ty hc h hc' h', perp_settle_fees e b a fees mx = Some o -> 0 <= mx ->
  settle_bank_ok b -> settle_acct_ok a -> market_shown e a -> no_fills (sa_perp a) -> fixed_weights (xe_cfg e) ty ->
  acct_cache e b a = Some hc -> health hc ty = Some h -> acct_cache (with_market e (fo_mk o)) (fo_bank o) (fo_acct o) = Some hc' -> health hc' ty = Some h' ->
  no_reserved hc -> Forall token_ok (hc_tokens hc) ->
  (fo_amount o = 0 -> h' = h) /\
  (fo_amount o <> 0 -> exists i t, nth_info hc (wc_index (xe_cfg e)) = Some (i, t) /\
    - (2 * top_price t ty + fone) < (h' - h) * fone < ix_round b * top_price t ty + fone).
Proof.
  intros e b a fees mx o ty hc h hc' h' H MX SBO (N1 & N2 & U) MS NF FW HC Hh HC' Hh' NR TO.
  pose proof (C97_amounts _ _ _ _ _ _ H MX) as (_ & S0 & SB & _ & MK & _). cbv zeta in *. rewrite MK, cache_market in HC' by (try reflexivity; intros; apply info_fees).
  pose proof H as HT. apply fees_inv in H as (IM & p & l & S & Z0 & PD). split.
  - intros E. destruct (Z0 E) as (Eb & _ & Ea). destruct (settle_fees_pos _ _ _ _ _ _ _ _ _ _ S) as [(_ & -> & -> & _)|(N & _)]; [|contradiction].
    assert (X : acct_cache e b (with_settled a (settle_funding (sa_perp a) (xe_mk e), sa_lim a) (sa_tok a)) = acct_cache e b a).
    { unfold acct_cache. cbn [with_settled sa_tok sa_L sa_O sa_P sa_perp fst]. destruct (positions_with _ _ _ _); [|reflexivity]. f_equal. unfold perps_with. apply map_ext. intros pi. destruct (_ =? _); [|reflexivity].
      unfold perp_info, new_pinfo.
      assert (UF : unsettled_funding (settle_funding (sa_perp a) (xe_mk e)) (xe_mk e) = 0) by (unfold unsettled_funding, settle_funding; cbn [p_base p_long_settled p_short_settled]; rewrite !Z.sub_diag, !fmul_0_l; destruct (0 <? _); [|destruct (_ <? 0)]; reflexivity).
      rewrite UF. cbn [settle_funding p_base p_taker_base p_bids p_asks p_quote p_taker_quote]. f_equal. lia. }
    rewrite Ea, Eb, X, HC in HC'. apply some_inj in HC'. subst hc'. rewrite Hh in Hh'. apply some_inj in Hh'. auto.
  - intros N. destruct (C97_tokens _ _ _ _ _ _ HT ltac:(lia) SBO U) as (NT & _). destruct (PD N) as [HP _ Ea _ _]. destruct (has_in _ _ HP) as [I1 I2]. rewrite Ea in HC'.
    pose proof (cache_change e b (fo_bank o) a (p, l) (sa_tok (fo_acct o)) hc hc' N1 I1 HC HC') as CH.
    destruct (health_changed e a p _ hc hc' ty false h h' CH N2 I2 NR FW Hh Hh') as (pi & t & Ipi & Mpi & NI & UI & It & EH). cbv zeta in EH.
    destruct (nth_info hc (wc_index (xe_cfg e))) as [[i u]|] eqn:NX; [|contradiction]. pose proof (UI i u eq_refl) as ->. exists i, t. split; [reflexivity|].
    destruct (MS pi Ipi Mpi) as [MO MH]. destruct (settle_fees_pos _ _ _ _ _ _ _ _ _ _ S) as [(E & _)|(_ & (y & Y) & _)]; [contradiction|]. rewrite Y in EH.
    destruct (loser_hupnl e (sa_perp a) (fo_amount o) y (pi_prices pi) ty false MH NF MO ltac:(lia) (proj1 (SB ltac:(lia)))) as (_ & _ & L3). rewrite L3 in EH. cbn iota in EH.
    rewrite EH, Z.add_simpl_l. rewrite Forall_forall in TO. destruct SBO as (D & B & LO).
    assert (N0 : 0 <= ix_round b). { pose proof (ix_round_bound b (conj D B)) as IR. pose proof fone_pos as FP. clear - IR FP D B. nia. }
    apply contribution_step; [apply TO, It|lia|exact N0|]. clear - NT. lia.
Qed.
Print Assumptions C97_health.

(** ** examples *)
Definition ex_fenv : senv := mkXE (with_fees ex_bmk (of_int 30)) (ex_spar 50) ex_ssc ex_scfg fone fone 50.
(** a loss of 50 and 60 settle tokens, 30 of fees accrued, at most 25 asked for: 25 are paid *)
Example C97_example : let e := ex_fenv in let a := ex_sacct 60 (quote_pos (-50)) 10 in let b := ex_sbank (sa_tok a) (mkTpos 0 0) in
  settle_bank_ok b /\ settle_acct_ok a /\ market_shown e a /\ no_fills (sa_perp a) /\ fixed_weights (xe_cfg e) HInit /\
  exists o hc hc' h h', perp_settle_fees e b a (of_int 7) 25 = Some o /\ fo_amount o = of_int 25 /\ fo_fees o = of_int 32 /\ mk_fees_accrued (fo_mk o) = of_int 5 /\
    to_int (native (fo_bank o) (sa_tok (fo_acct o))) = 35 /\ p_quote (sa_perp (fo_acct o)) = of_int (-25) /\
    acct_cache e b a = Some hc /\ health hc HInit = Some h /\ acct_cache (with_market e (fo_mk o)) (fo_bank o) (fo_acct o) = Some hc' /\ health hc' HInit = Some h' /\
    map to_int [h; h'] = [16; 17] /\ no_reserved hc /\ Forall token_ok (hc_tokens hc).
Proof.
  cbv zeta. split; [sbankok|]. split; [sacctok|]. split; [sshown|]. split; [split; reflexivity|]. split; [right; split; reflexivity|].
  do 5 eexists. do 10 (split; [vm_compute; reflexivity|]). split; [vm_compute; reflexivity|]. split; [apply Forall_nil|]. stoks.
Qed.
(** an account in profit, or a market without fees: nothing happens; an account with negative initial health: refused *)
Example C97_nothing : exists o, perp_settle_fees ex_fenv (ex_sbank (mkTpos 0 1) (mkTpos 0 0)) (ex_sacct 60 (quote_pos 50) 10) 0 25 = Some o /\ fo_amount o = 0.
Proof. eexists. split; vm_compute; reflexivity. Qed.
Example C97_refused : perp_settle_fees ex_fenv (ex_sbank (mkTpos (t_ix (ex_tpos 60)) 1) (mkTpos 0 0)) (ex_sacct 60 (quote_pos (-90)) 10) 0 25 = None.
Proof. vm_compute. reflexivity. Qed.
