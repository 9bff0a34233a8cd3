(** C103: buying back fees, the instruction as a whole. *)
From Coq Require Import List ZArith Lia Bool Arith.
From Verif Require Import HealthFacts Fixed PerpTypes Interest Bank BankSpec BankFacts BankInv BankResults Buyback BuybackSpec BuybackFacts PropBuyback TokenLiqSpec TokenLiqFacts PropPerpLiqNeg PropSettleIx SettleIxFacts PerpLiqNegFacts BuybackIx.
Import ListNotations.
Open Scope Z_scope.

(** one native token of dust, [k] roundings *)
Lemma withdraw_any b p x now b' p' a : settle_bank_ok b -> 0 <= t_ix p -> x <= native b p -> withdraw_without_fee b p x now = Some (b', p', a) ->
  0 <= t_ix p' /\ (if a then - x - 2 else - x - fone) < native b' p' - native b p < - x + ix_round b /\ moved b b' p p' /\ b_fees b' = b_fees b /\ settle_bank_ok b' /\ (a = false -> t_ix p' = 0).
Proof.
  intros (D & B & LO) P X E. assert (OK : index_ok b) by (split; assumption). unfold withdraw_without_fee in E. destruct (withdraw_internal _ _ _ _ _ _) as [[[b2 o1] r1]|] eqn:E3; [|discriminate].
  apply some_inj in E. do 2 (apply pair_equal_spec in E as [E ?]). subst b2 o1 a.
  apply withdraw_spec in E3 as (_ & Mv & _ & _ & F & WF & _ & A2 & A2' & B1 & B2 & Q1 & _); [|exact OK|exact LO]. cbn [andb] in WF. rewrite WF in *. rewrite Z.add_0_r in *.
  split; [exact (Q1 X)|]. pose proof (ix_round_bound b OK) as IR. pose proof fone_pos as FP.
  assert (S' : settle_bank_ok b') by (unfold settle_bank_ok; rewrite (mv_di _ _ _ _ Mv), (mv_bi _ _ _ _ Mv), (mv_lof _ _ _ _ Mv); auto).
  split; [|split; [exact Mv|split; [exact F|split; [exact S'|]]]].
  - destruct (w_active r1) eqn:W.
    + rewrite (A2 eq_refl) in B1, B2. rewrite Z.sub_diag, Z.mul_0_l, Z.add_0_r in B1, B2. pose proof (native_bounds b' p') as N1. rewrite (moved_pv _ _ _ _ _ Mv) in N1. pose proof (native_bounds b p) as N2.
      clear - B1 B2 N1 N2 IR FP D B. set (mx := Z.max _ _) in *. set (n1 := native b' p') in *. set (n2 := native b p) in *. set (ir := ix_round _) in *. clearbody mx n1 n2 ir.
      set (p1 := pv _ _) in *. set (p2 := pv _ _) in *. clearbody p1 p2. split; nia.
    + destruct (A2' eq_refl) as (_ & _ & T & _ & N & _). assert (native b' p' = 0) by (unfold native; rewrite T; reflexivity). assert (0 < ix_round b) by (destruct (Z_le_gt_dec (ix_round b) 0); [nia|lia]). lia.
  - intros W. destruct (A2' W) as (_ & _ & T & _). exact T.
Qed.
Lemma deposit_any b p x now b' p' a : settle_bank_ok b -> deposit b p x now = Some (b', p', a) ->
  t_ix p <= t_ix p' /\ (if a then x - 2 else x - fone) < native b' p' - native b p < x + ix_round b + 1 /\ moved b b' p p' /\ b_fees b' = b_fees b /\ settle_bank_ok b' /\ (0 <= t_ix p -> a = true) /\ (a = false -> t_ix p' = 0).
Proof.
  intros (D & B & LO) E. assert (OK : index_ok b) by (split; assumption). unfold deposit in E. apply deposit_spec in E as (_ & Mv & F & T & A & A' & B1 & B2 & _); [|exact OK].
  split; [exact T|]. pose proof (ix_round_bound b OK) as IR. pose proof fone_pos as FP.
  assert (S' : settle_bank_ok b') by (unfold settle_bank_ok; rewrite (mv_di _ _ _ _ Mv), (mv_bi _ _ _ _ Mv), (mv_lof _ _ _ _ Mv); auto).
  split; [|split; [exact Mv|split; [exact F|split; [exact S'|split]]]].
  - destruct a.
    + rewrite (A eq_refl) in B1, B2. rewrite Z.sub_diag, Z.mul_0_l, Z.add_0_r in B1, B2. pose proof (native_bounds b' p') as N1. rewrite (moved_pv _ _ _ _ _ Mv) in N1. pose proof (native_bounds b p) as N2.
      clear - B1 B2 N1 N2 IR FP D B. set (mx := Z.max _ _) in *. set (n1 := native b' p') in *. set (n2 := native b p) in *. set (ir := ix_round _) in *. clearbody mx n1 n2 ir.
      set (p1 := pv _ _) in *. set (p2 := pv _ _) in *. clearbody p1 p2. split; nia.
    + destruct (A' eq_refl) as (_ & _ & T0 & _ & N & N'). assert (native b' p' = 0) by (unfold native; rewrite T0; reflexivity). split; [lia|].
      assert (K : (- native b p) * fone < (x + ix_round b + 1) * fone) by nia. apply Zmult_lt_reg_r in K; lia.
  - intros P. destruct a; [reflexivity|]. destruct (A' eq_refl) as (_ & N & _). lia.
  - intros W. destruct (A' W) as (_ & _ & T0 & _). exact T0.
Qed.

(** ** specification *)
(** the two banks and the four positions: the MNGO and quote positions of the account, and those of the DAO *)
Definition banks_ok (s : bstate) : Prop := settle_bank_ok (bs_mngo s) /\ settle_bank_ok (bs_quote s).
(** positive prices and bonus, u64 fields *)
Definition args_ok (s : bstate) (max_usd mo qo bonus : Z) : Prop :=
  0 <= bf_current (bs_fees s) /\ 0 <= bf_previous (bs_fees s) /\ 0 <= max_usd <= max_u64 /\ 0 < mo /\ 0 < qo /\ 0 < b_stable (bs_mngo s) /\ 0 < b_stable (bs_quote s) /\ 0 < bonus.
(** a native balance changes by [d], within rounding at the indices; a position that does not stay active may lose up to one native token of dust *)
Definition changes (b b' : bank) (p p' : tpos) (d : Z) : Prop :=
  d - fone < native b' p' - native b p < d + ix_round b + 1.

Lemma guard_some c (A : Type) (k : option A) (v : A) : match guard c with Some _ => k | None => None end = Some v -> c = true /\ k = Some v.
Proof. destruct c; [intros H; split; [reflexivity|exact H]|discriminate]. Qed.
Lemma may_close_some act p (A : Type) (k : option A) (v : A) : match may_close act p with Some _ => k | None => None end = Some v -> k = Some v.
Proof. unfold may_close. intros H. apply guard_some in H as [_ H]. exact H. Qed.
Lemma native_same b b' p : b_di b' = b_di b -> b_bi b' = b_bi b -> native b' p = native b p.
Proof. intros H K. unfold native. rewrite H, K. reflexivity. Qed.
Lemma changes_1 b b1 b2 p p' p2 q2 (a : bool) d : (if a then d - 2 else d - fone) < native b1 p' - native b p < d + ix_round b + 1 -> moved b1 b2 p2 q2 -> changes b b2 p p' d.
Proof.
  intros H V. unfold changes. rewrite (native_same b1 b2 p' (mv_di _ _ _ _ V) (mv_bi _ _ _ _ V)). assert (2 < fone) by reflexivity. destruct a; lia.
Qed.
Lemma changes_2 b b1 b2 p p' p1 q1 (a : bool) d : (if a then d - 2 else d - fone) < native b2 p' - native b1 p < d + ix_round b1 + 1 -> moved b b1 p1 q1 -> changes b b2 p p' d.
Proof.
  intros H V. unfold changes. rewrite <- (native_same b b1 p (mv_di _ _ _ _ V) (mv_bi _ _ _ _ V)), <- (ix_round_same b b1 (mv_di _ _ _ _ V) (mv_bi _ _ _ _ V)).
  assert (2 < fone) by reflexivity. destruct a; lia.
Qed.
(** what a bank's total deposits and borrows change by, when two positions in it change *)
Definition totals (b b' : bank) (p p' q q' : tpos) : Prop :=
  b_dep b' - b_dep b = (Z.max (t_ix p') 0 - Z.max (t_ix p) 0) + (Z.max (t_ix q') 0 - Z.max (t_ix q) 0) /\
  b_bor b' - b_bor b = (Z.max (- t_ix p') 0 - Z.max (- t_ix p) 0) + (Z.max (- t_ix q') 0 - Z.max (- t_ix q) 0).
Lemma totals_two b b1 b2 p p' q q' : moved b b1 p p' -> moved b1 b2 q q' -> totals b b2 p p' q q'.
Proof. intros [D1 B1 _ _ _ _ _ _ _] [D2 B2 _ _ _ _ _ _ _]. unfold totals. lia. Qed.

(** ** C103 *)
(** What moves.  The account pays MNGO to the DAO and receives quote tokens from it, the same amount on both sides; neither payer goes into debt, the
    account never pays more MNGO nor the DAO more quote tokens than it has; the totals of both banks move as the positions do, and no fees are collected. *)
Theorem C103_amounts self s now interval max_usd mo qo bonus s' x : banks_ok s -> args_ok s max_usd mo qo bonus ->
  buyback_ix self s now interval max_usd mo qo bonus = Some (s', Some x) -> 0 <= t_ix (bs_am s) -> 0 <= t_ix (bs_dq s) ->
  0 <= bb_mngo x <= native (bs_mngo s) (bs_am s) /\ 0 <= bb_fees x <= native (bs_quote s) (bs_dq s) /\
  changes (bs_mngo s) (bs_mngo s') (bs_am s) (bs_am s') (- bb_mngo x) /\ changes (bs_mngo s) (bs_mngo s') (bs_dm s) (bs_dm s') (bb_mngo x) /\
  changes (bs_quote s) (bs_quote s') (bs_dq s) (bs_dq s') (- bb_fees x) /\ changes (bs_quote s) (bs_quote s') (bs_aq s) (bs_aq s') (bb_fees x) /\
  0 <= t_ix (bs_am s') /\ 0 <= t_ix (bs_dq s') /\ t_ix (bs_aq s) <= t_ix (bs_aq s') /\ t_ix (bs_dm s) <= t_ix (bs_dm s') /\
  b_fees (bs_mngo s') = b_fees (bs_mngo s) /\ b_fees (bs_quote s') = b_fees (bs_quote s) /\ banks_ok s' /\
  totals (bs_mngo s) (bs_mngo s') (bs_am s) (bs_am s') (bs_dm s) (bs_dm s') /\ totals (bs_quote s) (bs_quote s') (bs_dq s) (bs_dq s') (bs_aq s) (bs_aq s').
Proof.
  intros (BM & BQ) (F1 & F2 & MX & P1 & P2 & P3 & P4 & P5) E A D. unfold buyback_ix in E. apply guard_some in E as [_ E]. cbv zeta in E.
  destruct (buyback_fees _ _ _ _ _ _ _ _ _) as [[f [y|]]|] eqn:EB; [|discriminate|discriminate].
  apply C34_buyback in EB; [|exact F1|exact F2|lia|lia|lia|exact MX]. destruct EB as (B1 & B2 & _).
  apply guard_some in E as [_ E].
  destruct (withdraw_without_fee _ _ _ _) as [[[m1 am] a1]|] eqn:W1; [|discriminate]. apply may_close_some in E.
  destruct (deposit m1 _ _ _) as [[[m2 dm] a2]|] eqn:D1; [|discriminate].
  destruct (withdraw_without_fee (bs_quote s) _ _ _) as [[[q1 dq] a3]|] eqn:W2; [|discriminate]. apply may_close_some in E.
  destruct (deposit q1 _ _ _) as [[[q2 aq] a4]|] eqn:D2; [|discriminate]. apply may_close_some in E.
  do 2 (apply guard_some in E as [_ E]). apply some_inj, pair_equal_spec in E as [<- E]. apply some_inj in E. subst y.
  cbn [bs_mngo bs_quote bs_am bs_aq bs_dm bs_dq].
  apply withdraw_any in W1 as (N1 & X1 & V1 & G1 & K1 & _); [|exact BM|exact A|lia]. apply withdraw_any in W2 as (N2 & X2 & V2 & G2 & K2 & _); [|exact BQ|exact D|lia].
  apply deposit_any in D1 as (N3 & X3 & V3 & G3 & K3 & _); [|exact K1]. apply deposit_any in D2 as (N4 & X4 & V4 & G4 & K4 & _); [|exact K2].
  split; [exact B1|]. split; [exact B2|]. split; [refine (changes_1 _ m1 _ _ _ _ _ a1 _ _ V3); clear - X1; destruct a1; lia|]. split; [apply (changes_2 _ m1 _ _ _ _ _ a2 _ X3 V1)|].
  split; [refine (changes_1 _ q1 _ _ _ _ _ a3 _ _ V4); clear - X2; destruct a3; lia|]. split; [apply (changes_2 _ q1 _ _ _ _ _ a4 _ X4 V2)|].
  split; [exact N1|]. split; [exact N2|]. split; [exact N4|]. split; [exact N3|]. split; [congruence|]. split; [congruence|]. split; [exact (conj K3 K4)|].
  split; [exact (totals_two _ _ _ _ _ _ _ V1 V3)|exact (totals_two _ _ _ _ _ _ _ V2 V4)].
Qed.
(** What the DAO is left with: it is not the account itself, and after a move it has no negative token position, no perp position and no open orders.  When
    there is nothing to buy back, or the account has no MNGO, only the expiry of earned fees is recorded. *)
Theorem C103_dao self s now interval max_usd mo qo bonus s' r : buyback_ix self s now interval max_usd mo qo bonus = Some (s', r) ->
  self = false /\
  match r with
  | Some _ => 0 <= t_ix (bs_dm s) /\ 0 <= t_ix (bs_dm s') /\ 0 <= t_ix (bs_dq s') /\ (forall p, In p (bs_rest s') -> 0 <= t_ix p) /\ bs_perps s' = 0 /\ bs_spots s' = 0
  | None => exists f, expire_fees (bs_fees s) now interval = Some f /\
      s' = mkBS (bs_mngo s) (bs_quote s) (bs_am s) (bs_aq s) (bs_dm s) (bs_dq s) f (bs_rest s) (bs_perps s) (bs_spots s)
  end.
Proof.
  intros E. unfold buyback_ix in E. apply guard_some in E as [SF E]. split; [destruct self; [discriminate|reflexivity]|]. cbv zeta in E.
  destruct (buyback_fees _ _ _ _ _ _ _ _ _) as [[f [y|]]|] eqn:EB; [| |discriminate].
  - apply guard_some in E as [DM E].
    destruct (withdraw_without_fee _ _ _ _) as [[[m1 am] a1]|] eqn:W1; [|discriminate]. apply may_close_some in E.
    destruct (deposit m1 _ _ _) as [[[m2 dm] a2]|] eqn:D1; [|discriminate].
    destruct (withdraw_without_fee (bs_quote s) _ _ _) as [[[q1 dq] a3]|] eqn:W2; [|discriminate]. apply may_close_some in E.
    destruct (deposit q1 _ _ _) as [[[q2 aq] a4]|] eqn:D2; [|discriminate]. apply may_close_some in E.
    apply guard_some in E as [P E]. apply guard_some in E as [C E]. apply some_inj, pair_equal_spec in E as [<- <-].
    cbn [bs_mngo bs_quote bs_am bs_aq bs_dm bs_dq bs_rest bs_perps bs_spots]. apply andb_true_iff in P as [P P3]. apply andb_true_iff in P as [P1 P2]. apply andb_true_iff in C as [C1 C2].
    rewrite forallb_forall in P3. split; [lia|]. split; [lia|]. split; [lia|]. split; [|lia]. intros p I. apply P3 in I. lia.
  - apply some_inj, pair_equal_spec in E as [<- <-]. exists f. split; [|reflexivity]. unfold buyback_fees in EB. destruct (expire_fees _ _ _) as [f1|]; [|discriminate].
    cbv zeta in EB. destruct (_ <=? 0); [apply some_inj, pair_equal_spec in EB as [<- _]; reflexivity|]. destruct (_ <=? 0); [apply some_inj, pair_equal_spec in EB as [<- _]; reflexivity|].
    destruct (_ =? 0); [discriminate|]. destruct (_ =? 0); [discriminate|]. destruct (_ <? _); [discriminate|]. destruct (reduce_fees _ _); discriminate.
Qed.
(** The price.  The quote tokens, at the higher of their oracle and stable price, are worth no more than the MNGO at the lower of its two prices times the
    bonus, and no more than what was asked for or what the account's earned fees entitle it to; those are used up in turn. *)
Theorem C103_fair self s now interval max_usd mo qo bonus s' x : args_ok s max_usd mo qo bonus -> buyback_ix self s now interval max_usd mo qo bonus = Some (s', Some x) ->
  (forall fp, fp = qo \/ fp = b_stable (bs_quote s) -> forall mp, mp = mo \/ mp = b_stable (bs_mngo s) -> (bb_fees x * fp) * fone <= bb_mngo x * (mp * bonus)) /\
  (forall fp, fp = qo \/ fp = b_stable (bs_quote s) -> bb_fees x * fp <= bb_usd x * fone) /\
  bb_usd x <= of_int max_usd /\
  exists f1, expire_fees (bs_fees s) now interval = Some f1 /\ bb_usd x <= of_int (fees_accrued f1) /\
    (bf_current f1 + bf_previous f1 <= max_u64 -> fees_accrued (bs_fees s') = fees_accrued f1 - ceil_int (bb_usd x)).
Proof.
  intros (F1 & F2 & MX & P1 & P2 & P3 & P4 & P5) E. unfold buyback_ix in E. apply guard_some in E as [_ E]. cbv zeta in E.
  destruct (buyback_fees _ _ _ _ _ _ _ _ _) as [[f [y|]]|] eqn:EB; [|discriminate|discriminate].
  apply C34_buyback in EB; [|exact F1|exact F2|lia|lia|lia|exact MX]. destruct EB as (B1 & B2 & B3 & B4 & B5 & B6).
  apply guard_some in E as [_ E].
  destruct (withdraw_without_fee _ _ _ _) as [[[m1 am] a1]|] eqn:W1; [|discriminate]. apply may_close_some in E.
  destruct (deposit m1 _ _ _) as [[[m2 dm] a2]|] eqn:D1; [|discriminate].
  destruct (withdraw_without_fee (bs_quote s) _ _ _) as [[[q1 dq] a3]|] eqn:W2; [|discriminate]. apply may_close_some in E.
  destruct (deposit q1 _ _ _) as [[[q2 aq] a4]|] eqn:D2; [|discriminate]. apply may_close_some in E.
  do 2 (apply guard_some in E as [_ E]). apply some_inj, pair_equal_spec in E as [<- E]. apply some_inj in E. subst y. cbn [bs_fees].
  set (lo := Z.min mo (b_stable (bs_mngo s))) in *. set (hi := Z.max qo (b_stable (bs_quote s))) in *.
  assert (FP : forall fp, fp = qo \/ fp = b_stable (bs_quote s) -> fp <= hi) by (unfold hi; intros fp [->| ->]; lia).
  assert (MP : forall mp, mp = mo \/ mp = b_stable (bs_mngo s) -> lo <= mp) by (unfold lo; intros mp [->| ->]; lia).
  split; [|split; [|split; [exact B3|exact B6]]].
  - intros fp HF mp HM. specialize (FP fp HF). specialize (MP mp HM). pose proof fone_pos as F0. transitivity (bb_fees x * hi * fone).
    + apply Z.mul_le_mono_nonneg_r; [lia|]. apply Z.mul_le_mono_nonneg_l; lia.
    + etransitivity; [exact B4|]. apply Z.mul_le_mono_nonneg_l; [lia|]. apply Z.mul_le_mono_nonneg_r; lia.
  - intros fp HF. specialize (FP fp HF). transitivity (bb_fees x * hi); [apply Z.mul_le_mono_nonneg_l; lia|lia].
Qed.
(** 31250 MNGO at 0.02 with a bonus of a fifth buy back 750 of 800 earned fees; the account's MNGO position ends empty *)
Definition ex_bank (stable : fx) : bank :=
  mkBank (1000000 * fone) (1000000 * fone) (2 * fone) fone 0 0 (fone / 2000) 0 100 0 1000 stable 0 0 0 (fone * 9 / 10) 0 (mkIpar (fone / 100) (fone / 2) (fone / 20) (fone * 8 / 10) (fone / 5) fone 0 (fone / 200)) 0.
Definition ex_state : bstate :=
  mkBS (ex_bank (fone / 40)) (ex_bank fone) (mkTpos (fone / 32) 0) (mkTpos 0 0) (mkTpos 0 0) (mkTpos (fone / 8) 1) (mkBfees 500 300 2000) [mkTpos fone 0; mkTpos 0 1] 0 0.
Example C103_example : banks_ok ex_state /\ args_ok ex_state 10000 (fone / 50) fone (fone * 6 / 5) /\ 0 <= t_ix (bs_am ex_state) /\ 0 <= t_ix (bs_dq ex_state) /\
  exists s' x, buyback_ix false ex_state 1500 1000 10000 (fone / 50) fone (fone * 6 / 5) = Some (s', Some x) /\
    bb_mngo x = of_int 31250 /\ 0 < bb_fees x /\ t_ix (bs_am s') = 0 /\ 0 < t_ix (bs_aq s') /\ 0 < t_ix (bs_dm s') /\ fees_accrued (bs_fees s') = 50.
Proof.
  split; [split; (split; [vm_compute; reflexivity|split; [vm_compute; reflexivity|vm_compute; discriminate]])|].
  split.
  { unfold args_ok, ex_state, ex_bank. cbn [bs_fees bs_mngo bs_quote bf_current bf_previous b_stable]. split; [lia|]. split; [lia|]. split; [unfold max_u64; lia|].
    split; [reflexivity|]. split; [reflexivity|]. split; [reflexivity|]. split; reflexivity. }
  split; [vm_compute; discriminate|]. split; [vm_compute; discriminate|].
  eexists _, _. split; [vm_compute; reflexivity|]. split; [vm_compute; reflexivity|]. split; [vm_compute; reflexivity|]. split; [vm_compute; reflexivity|]. split; [vm_compute; reflexivity|]. split; [vm_compute; reflexivity|]. vm_compute; reflexivity.
Qed.
Print Assumptions C103_amounts.
Print Assumptions C103_dao.
Print Assumptions C103_fair.
