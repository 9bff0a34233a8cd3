(** Lemmas about spot orders. *)
From Coq Require Import List ZArith Lia Bool.
From Verif Require Import OrderTree Keys PerpTypes Interest InterestFacts Bank BankFacts BankInv BankSpec BankSolvency Health HealthSpec HealthFacts
  LiqState TokenLiq Serum SerumSpec Fixed.
Import ListNotations.
Open Scope Z_scope.

Lemma ok_index b p : side_ok b p -> index_ok b. Proof. intros (A & B & _). split; assumption. Qed.
Lemma native_mono b p p' : index_ok b -> t_ix p <= t_ix p' -> native b p <= native b p'.
Proof.
  intros [Hd Hb] H. unfold native, fmul. pose proof fone_pos as FP.
  destruct (Z.ltb_spec 0 (t_ix p)), (Z.ltb_spec 0 (t_ix p')); try (apply Z.div_le_mono; [exact FP|nia]); lia.
Qed.
Lemma native_same b b' p : b_di b' = b_di b -> b_bi b' = b_bi b -> native b' p = native b p.
Proof. intros A B. unfold native. rewrite A, B. reflexivity. Qed.
Lemma pv_claim b p : pv b (t_ix p) = claim b p. Proof. apply BankSolvency.pv_worth. Qed.
Lemma claim_same b b' p : b_di b' = b_di b -> b_bi b' = b_bi b -> claim b' p = claim b p.
Proof. intros A B. unfold claim. rewrite A, B. reflexivity. Qed.
Lemma to_int_le x n : x < of_int (n + 1) -> to_int x <= n.
Proof. unfold to_int, of_int. intros H. pose proof fone_pos as FP. pose proof (Z.div_lt_upper_bound x fone (n + 1) FP ltac:(lia)). lia. Qed.
Lemma of_int_sub a b : of_int a - of_int b = of_int (a - b). Proof. unfold of_int. ring. Qed.
Lemma to_of_int n : to_int (of_int n) = n. Proof. unfold to_int, of_int. apply Z.div_mul. pose proof fone_pos; lia. Qed.

Record vd_ok (b b' : bank) (p p' : tpos) (bwf bwf' d : Z) (c : fx) : Prop := {
  vd_moved : moved b b' p p';
  vd_side : side_moved 1 b b' p p' (of_int d) 0;
  vd_serum : b_serum b' = b_serum b;
  vd_change : c = native b' p' - native b p;
  vd_in : 0 <= d -> 0 <= bwf -> bwf' = Z.max 0 (bwf - d);
  vd_out : d < 0 -> bwf' = bwf + to_int (debt b' p' - debt b p) /\ 0 <= to_int (debt b' p' - debt b p) <= - d }.
Lemma vd_spec b p bwf after before now b' p' bwf' c : side_ok b p -> vault_difference b p bwf after before now = Some (b', p', bwf', c) ->
  vd_ok b b' p p' bwf bwf' (after - before) c.
Proof.
  intros OK H. pose proof OK as (Hd & Hb & Hl & Hu). pose proof (ok_index _ _ OK) as IX. pose proof fone_pos as FP.
  unfold vault_difference in H. rewrite of_int_sub in H. set (d := after - before) in *.
  assert (IU : in_use p = true) by (unfold in_use; apply Z.ltb_lt; exact Hu).
  destruct (Z.leb_spec 0 (of_int d)) as [D|D].
  - assert (D0 : 0 <= d) by (unfold of_int in D; nia).
    destruct (deposit b p (of_int d) now) as [[[b1 p1] a1]|] eqn:E; [|discriminate]. unfold deposit in E. rewrite IU in E. cbn [negb] in E.
    apply deposit_spec in E; [|exact IX]. destruct E as (_ & M & F & L & A1 & A2 & B1 & B2 & _).
    assert (AT : a1 = true) by (destruct a1; [reflexivity|destruct (A2 eq_refl); discriminate]). specialize (A1 AT).
    match type of H with match guard ?g with _ => _ end = _ => destruct g eqn:G; cbn [guard] in H; [|discriminate] end.
    apply some_inj in H. do 3 (apply pair_equal_spec in H as [H ?]). subst b1 p1 c bwf'.
    assert (NM : native b p <= native b' p') by (rewrite (native_same b b' p' (mv_di _ _ _ _ M) (mv_bi _ _ _ _ M)); apply native_mono; assumption).
    constructor; [exact M| |apply (mv_serum _ _ _ _ M)|reflexivity| |lia].
    + destruct M. constructor; try assumption; [split; assumption|rewrite F; lia|]. rewrite (claim_same b b' p') by assumption. rewrite <- !pv_claim. rewrite A1 in *. lia.
    + intros _ W. replace (Z.min _ 0) with 0 by lia. cbn [Z.abs]. change (to_int 0) with 0. rewrite Z.add_0_r, to_of_int.
      destruct (Z.ltb_spec 0 (of_int d)) as [|D1]; [reflexivity|]. assert (d = 0) by (unfold of_int in D1; nia). lia.
  - assert (D0 : d < 0) by (unfold of_int in D; nia).
    destruct (withdraw_without_fee b p (- of_int d) now) as [[[b1 p1] a1]|] eqn:E; [|discriminate]. unfold withdraw_without_fee in E. rewrite IU in E. cbn [negb] in E.
    destruct (withdraw_internal _ _ _ _ _ _) as [[[b2 p2] r]|] eqn:W; [|discriminate]. apply some_inj in E. do 2 (apply pair_equal_spec in E as [E ?]). subst b2 p2 a1.
    apply withdraw_spec in W; [|exact IX|exact Hl]. destruct W as (_ & M & L & _ & F & W1 & _ & A1 & A2 & B1 & B2 & _). cbn [andb] in W1. rewrite W1 in *.
    assert (AT : w_active r = true) by (destruct (w_active r); [reflexivity|destruct (A2 eq_refl); discriminate]). specialize (A1 AT).
    match type of H with match guard ?g with _ => _ end = _ => destruct g eqn:G; cbn [guard] in H; [|discriminate] end.
    apply some_inj in H. do 3 (apply pair_equal_spec in H as [H ?]). subst b1 p1 c bwf'.
    assert (NS : native b' p' = native b p') by (apply native_same; [apply (mv_di _ _ _ _ M)|apply (mv_bi _ _ _ _ M)]).
    assert (NM : native b p' <= native b p) by (apply native_mono; assumption).
    constructor; [exact M| |apply (mv_serum _ _ _ _ M)|reflexivity|lia|].
    + destruct M. constructor; try assumption; [split; assumption|]. rewrite (claim_same b b' p') by assumption. rewrite <- !pv_claim. rewrite A1 in *. lia.
    + intros _. destruct (Z.ltb_spec 0 (of_int d)) as [|_]; [lia|].
      assert (DE : Z.abs (Z.min (Z.max (native b' p' - native b p) (native b' p')) 0) = debt b' p' - debt b p) by (unfold debt; lia).
      rewrite DE. split; [reflexivity|]. assert (DP : 0 <= debt b' p' - debt b p) by (unfold debt; lia).
      split; [unfold to_int; apply Z.div_pos; lia|]. apply to_int_le.
      pose proof (native_bounds b p) as [N1 N2]. pose proof (native_bounds b p') as [N3 N4]. rewrite A1 in B1. rewrite NS in *.
      assert (native b p - native b p' < of_int (- d) + 2).
      { assert ((native b p - native b p') * fone < (of_int (- d) + 2) * fone); [|nia]. unfold of_int in *. lia. }
      assert (of_int (- d + 1) = of_int (- d) + fone) by (unfold of_int; ring). assert (2 < fone) by reflexivity. unfold debt. lia.
Qed.

Lemma side_moved_le n m b b' p p' net fee : 0 < b_di b -> n <= m -> side_moved n b b' p p' net fee -> side_moved m b b' p p' net fee.
Proof. intros Hd L [A B C D E F [G H]]. constructor; try assumption. pose proof fone_pos. nia. Qed.
Lemma side_moved_trans n m b b1 b2 p p1 p2 x y f g : side_moved n b b1 p p1 x f -> side_moved m b1 b2 p1 p2 y g -> side_moved (n + m) b b2 p p2 (x + y) (f + g).
Proof.
  intros [A1 A2 A3 [A4 A5] A6 A7 A8] [B1 B2 B3 [B4 B5] B6 B7 B8]. rewrite A4, A5 in *. constructor; lia.
Qed.
Lemma side_moved_refl b p : 0 < b_di b -> side_moved 0 b b p p 0 0.
Proof. intros H. constructor; try lia; auto. Qed.

(** fees for used loans *)
Record cs_ok (b b' : bank) (p p' : tpos) (bwf bwf' total loan : Z) : Prop := {
  cs_loan : loan = Z.max 0 (bwf - total);
  cs_bwf : bwf' = Z.min bwf total;
  cs_moved : side_moved 1 b b' p p' (- fmul (b_lof b) (of_int loan)) (fmul (b_lof b) (of_int loan));
  cs_serum : b_serum b' = b_serum b;
  cs_ok' : side_ok b p -> side_ok b' p';
  cs_same : loan = 0 -> b' = b /\ p' = p }.
Lemma cs_spec b p bwf total ok now b' p' bwf' loan : side_ok b p -> charge_side b p bwf total ok now = Some (b', p', bwf', loan) ->
  cs_ok b b' p p' bwf bwf' total loan.
Proof.
  intros OK H. pose proof OK as (Hd & Hb & Hl & Hu). pose proof (ok_index _ _ OK) as IX. unfold charge_side in H.
  assert (IU : in_use p = true) by (unfold in_use; apply Z.ltb_lt; exact Hu).
  destruct (Z.ltb_spec 0 (Z.max 0 (bwf - total))) as [L|L].
  - destruct (withdraw_loan_origination_fee _ _ _ _) as [[[b1 p1] r1]|] eqn:W; [|discriminate]. destruct ok; cbn [guard] in H; [|discriminate].
    apply some_inj in H. do 3 (apply pair_equal_spec in H as [H ?]). subst b1 p1 bwf' loan.
    unfold withdraw_loan_origination_fee in W. set (n := Z.max 0 (bwf - total)) in *. set (fee := fmul (b_lof b) (of_int n)) in *.
    set (b0 := set_totals _ _ _ _ _) in W. rewrite IU in W. cbn [negb] in W.
    destruct (withdraw_internal b0 p fee false false now) as [[[b2 p2] r]|] eqn:WI; [|discriminate]. apply some_inj in W. do 2 (apply pair_equal_spec in W as [W ?]). subst b2 p2.
    apply withdraw_spec in WI; [|exact IX|exact Hl]. destruct WI as (_ & M & _ & _ & F & W1 & _ & A1 & A2 & B1 & B2 & _). cbn [andb] in W1. rewrite W1 in *.
    assert (AT : w_active r = true) by (destruct (w_active r); [reflexivity|destruct (A2 eq_refl); discriminate]). specialize (A1 AT).
    change (b_fees b0) with (b_fees b + fee) in F. change (pv b0) with (pv b) in *. change (b_dust b0) with (b_dust b) in *. change (b_di b0) with (b_di b) in *. change (b_bi b0) with (b_bi b) in *.
    pose proof (mv_di _ _ _ _ M) as MD. pose proof (mv_bi _ _ _ _ M) as MB. change (b_di b0) with (b_di b) in MD. change (b_bi b0) with (b_bi b) in MB.
    constructor; [reflexivity|lia| |apply (mv_serum _ _ _ _ M)| |lia].
    + constructor; [apply (mv_dep _ _ _ _ M)|apply (mv_bor _ _ _ _ M)|apply (mv_use _ _ _ _ M)|split; assumption|lia|exact A1|].
      rewrite (claim_same b b' p') by assumption. rewrite <- !pv_claim. rewrite A1 in *. lia.
    + intros _. pose proof (mv_lof _ _ _ _ M) as ML. change (b_lof b0) with (b_lof b) in ML. pose proof (mv_use _ _ _ _ M) as MU.
      unfold side_ok. rewrite MD, MB, ML, MU. tauto.
  - apply some_inj in H. do 3 (apply pair_equal_spec in H as [H ?]). subst b' p' bwf' loan.
    constructor; [lia|lia| |reflexivity|auto|auto].
    change (of_int 0) with 0. rewrite fmul_0_r. apply (side_moved_le 0); [exact Hd|lia|]. apply side_moved_refl. exact Hd.
Qed.

Lemma update_potential_same b o n b' : update_potential b o n = Some b' -> b' = set_serum b (b_serum b') .
Proof.
  unfold update_potential. destruct (o <=? n); [destruct (guard _); [|discriminate]|]; intros H; apply some_inj in H; subst b'; destruct b; reflexivity.
Qed.
Lemma update_potential_moved b o n b' : update_potential b o n = Some b' -> pot_moved b b' o n.
Proof.
  unfold update_potential, pot_moved. destruct (o <=? n); [destruct (guard _); [|discriminate]|]; intros H; apply some_inj in H; subst b'; reflexivity.
Qed.
Lemma set_serum_moved b x n p p' net fee b1 : side_moved n b b1 p p' net fee -> side_moved n b (set_serum b1 x) p p' net fee.
Proof. intros [A B C D E F G]. constructor; assumption. Qed.

Lemma potential_base_lo pf so so' oo : so_bid_lo so' = so_bid_lo so -> potential_base pf so' oo = potential_base pf so oo.
Proof. unfold potential_base. intros ->. reflexivity. Qed.
Lemma potential_quote_hi pf so so' oo : so_ask_hi so' = so_ask_hi so -> potential_quote pf so' oo = potential_quote pf so oo.
Proof. unfold potential_quote. intros ->. reflexivity. Qed.

(** ** settling *)
Definition lof_fee (b : bank) (loan : Z) : fx := fmul (b_lof b) (of_int loan).
Record side_settled (b b' : bank) (p p' : tpos) (bwf bwf' total d loan keep : Z) : Prop := {
  st_loan : loan = Z.max 0 (bwf - total);
  st_d : 0 <= d;
  st_bwf : 0 <= bwf -> 0 <= total -> bwf' = Z.max 0 (Z.min bwf total - d);
  st_moved : side_moved 2 b b' p p' (of_int d - lof_fee b loan) (lof_fee b loan + of_int keep) }.
Definition same_prices (so so' : sorders) : Prop :=
  so_bid_hi so' = so_bid_hi so /\ so_bid_lo so' = so_bid_lo so /\ so_ask_lo so' = so_ask_lo so /\ so_ask_hi so' = so_ask_hi so.
Record settled (pf : pfun) (s s' : sstate) (dao : bool) (oo oo' : openorders) (bv bv' qv qv' rec : Z) (loans : Z * Z) : Prop := {
  se_rec : rec = (if dao then Z.max 0 (oo_rebates oo - oo_rebates oo') else 0);
  se_bside : side_settled (ss_bb s) (ss_bb s') (ss_bp s) (ss_bp s') (so_bbwf (ss_so s)) (so_bbwf (ss_so s')) (oo_base_total oo) (bv' - bv) (fst loans) 0;
  se_qside : side_settled (ss_qb s) (ss_qb s') (ss_qp s) (ss_qp s') (so_qbwf (ss_so s)) (so_qbwf (ss_so s')) (oo_quote_total oo) (qv' - rec - qv) (snd loans) rec;
  se_prices : same_prices (ss_so s) (ss_so s');
  se_pot_base : potential_base pf (ss_so s') oo' = Some (so_pot_base (ss_so s'));
  se_pot_quote : potential_quote pf (ss_so s') oo' = Some (so_pot_quote (ss_so s'));
  se_bpot : pot_moved (ss_bb s) (ss_bb s') (so_pot_base (ss_so s)) (so_pot_base (ss_so s'));
  se_qpot : pot_moved (ss_qb s) (ss_qb s') (so_pot_quote (ss_so s)) (so_pot_quote (ss_so s')) }.
Lemma pot_moved_serum b b1 b' b'' o n : b_serum b1 = b_serum b -> b_serum b'' = b_serum b' -> pot_moved b1 b' o n -> pot_moved b b'' o n.
Proof. unfold pot_moved. intros -> ->. auto. Qed.
Lemma add_fee_moved b p x : 0 < b_di b -> side_moved 0 b (set_totals b (b_dep b) (b_bor b) (b_dust b) (b_fees b + x)) p p 0 x.
Proof. intros H. constructor; cbn [set_totals b_dep b_bor b_fees b_dust b_di b_bi]; unfold claim; cbn [set_totals b_di b_bi]; auto; lia. Qed.
Lemma settled_spec pf s s1 s' dao oo oo' bv bv' qv qv' now ok rec loans cs : state_ok s ->
  charge_fees s oo ok now = Some (s1, loans) -> settle_changes pf s1 dao oo oo' bv bv' qv qv' now = Some (s', rec, cs) ->
  settled pf s s' dao oo oo' bv bv' qv qv' rec loans /\
  cs = (native (ss_bb s') (ss_bp s') - native (ss_bb s1) (ss_bp s1), native (ss_qb s') (ss_qp s') - native (ss_qb s1) (ss_qp s1)) /\
  (loans = (0, 0) -> s1 = s).
Proof.
  intros [OB OQ] HC HS. unfold charge_fees in HC.
  destruct (charge_side (ss_bb s) _ _ _ _ _) as [[[[bb bp] bbwf] bl]|] eqn:CB; [|discriminate].
  destruct (charge_side (ss_qb s) _ _ _ _ _) as [[[[qb qp] qbwf] ql]|] eqn:CQ; [|discriminate]. apply some_inj in HC. apply pair_equal_spec in HC as [<- <-].
  apply cs_spec in CB; [|exact OB]. apply cs_spec in CQ; [|exact OQ].
  unfold settle_changes in HS. cbn [ss_bb ss_qb ss_bp ss_qp ss_so so_bbwf so_qbwf so_bid_hi so_bid_lo so_ask_lo so_ask_hi so_pot_base so_pot_quote] in HS.
  set (r := if dao then _ else 0) in HS. destruct (guard (r <=? qv')) eqn:G0; [|discriminate].
  destruct (Z.leb_spec bv bv') as [G1|]; cbn [guard] in HS; [|discriminate]. destruct (Z.leb_spec qv (qv' - r)) as [G2|]; cbn [guard] in HS; [|discriminate].
  destruct (vault_difference bb bp bbwf bv' bv now) as [[[[bb2 bp2] bbwf2] bc]|] eqn:VB; [|discriminate].
  set (qb1 := set_totals qb _ _ _ _) in HS. destruct (vault_difference qb1 qp qbwf (qv' - r) qv now) as [[[[qb2 qp2] qbwf2] qc]|] eqn:VQ; [|discriminate].
  assert (OB1 : side_ok bb bp) by (apply (cs_ok' _ _ _ _ _ _ _ _ CB OB)). assert (OQ1 : side_ok qb qp) by (apply (cs_ok' _ _ _ _ _ _ _ _ CQ OQ)).
  assert (OQ2 : side_ok qb1 qp) by exact OQ1.
  apply vd_spec in VB; [|exact OB1]. apply vd_spec in VQ; [|exact OQ2].
  destruct (update_potentials pf _ oo') as [s2|] eqn:UP; [|discriminate]. apply some_inj in HS. apply pair_equal_spec in HS as [HS HCS]. apply pair_equal_spec in HS as [-> <-].
  unfold update_potentials in UP. cbn [ss_bb ss_qb ss_bp ss_qp ss_so so_pot_base so_pot_quote] in UP.
  destruct (potential_base pf _ oo') as [nb|] eqn:PB; [|discriminate]. destruct (potential_quote pf _ oo') as [nq|] eqn:PQ; [|discriminate].
  destruct (update_potential bb2 _ nb) as [bb3|] eqn:UB; [|discriminate]. destruct (update_potential qb2 _ nq) as [qb3|] eqn:UQ; [|discriminate].
  apply some_inj in UP. subst s'. pose proof (update_potential_moved _ _ _ _ UB) as MB. pose proof (update_potential_moved _ _ _ _ UQ) as MQ.
  pose proof (update_potential_same _ _ _ _ UB) as EB. pose proof (update_potential_same _ _ _ _ UQ) as EQ.
  split; [|split].
  - constructor; cbn [ss_bb ss_qb ss_bp ss_qp ss_so so_bbwf so_qbwf so_pot_base so_pot_quote set_pots so_bid_hi so_bid_lo so_ask_lo so_ask_hi fst snd].
    + reflexivity.
    + constructor; [apply (cs_loan _ _ _ _ _ _ _ _ CB)|lia| |].
      * intros W T. pose proof (cs_bwf _ _ _ _ _ _ _ _ CB) as ->. apply (vd_in _ _ _ _ _ _ _ _ VB); lia.
      * rewrite EB. apply set_serum_moved. pose proof (side_moved_trans _ _ _ _ _ _ _ _ _ _ _ _ (cs_moved _ _ _ _ _ _ _ _ CB) (vd_side _ _ _ _ _ _ _ _ VB)) as T.
        replace (of_int (bv' - bv) - lof_fee (ss_bb s) bl) with (- lof_fee (ss_bb s) bl + of_int (bv' - bv)) by ring. exact T.
    + constructor; [apply (cs_loan _ _ _ _ _ _ _ _ CQ)|lia| |].
      * intros W T. pose proof (cs_bwf _ _ _ _ _ _ _ _ CQ) as ->. apply (vd_in _ _ _ _ _ _ _ _ VQ); lia.
      * rewrite EQ. apply set_serum_moved. destruct OQ1 as (Hd & _).
        pose proof (side_moved_trans _ _ _ _ _ _ _ _ _ _ _ _ (side_moved_trans _ _ _ _ _ _ _ _ _ _ _ _ (cs_moved _ _ _ _ _ _ _ _ CQ) (add_fee_moved qb qp (of_int r) Hd)) (vd_side _ _ _ _ _ _ _ _ VQ)) as T.
        replace (of_int (qv' - r - qv) - lof_fee (ss_qb s) ql) with (- lof_fee (ss_qb s) ql + 0 + of_int (qv' - r - qv)) by ring.
        replace (lof_fee (ss_qb s) ql + of_int r) with (lof_fee (ss_qb s) ql + of_int r + 0) by ring. exact T.
    + unfold same_prices; cbn. auto.
    + rewrite <- PB. apply potential_base_lo. reflexivity.
    + rewrite <- PQ. apply potential_quote_hi. reflexivity.
    + eapply pot_moved_serum; [|reflexivity|exact MB]. rewrite (vd_serum _ _ _ _ _ _ _ _ VB). apply (cs_serum _ _ _ _ _ _ _ _ CB).
    + eapply pot_moved_serum; [|reflexivity|exact MQ]. rewrite (vd_serum _ _ _ _ _ _ _ _ VQ). apply (cs_serum _ _ _ _ _ _ _ _ CQ).
  - cbn [ss_bb ss_qb ss_bp ss_qp]. rewrite <- HCS, (vd_change _ _ _ _ _ _ _ _ VB), (vd_change _ _ _ _ _ _ _ _ VQ).
    rewrite EB, EQ. unfold native. reflexivity.
  - intros HL. apply pair_equal_spec in HL as [-> ->]. destruct (cs_same _ _ _ _ _ _ _ _ CB eq_refl) as [-> ->]. destruct (cs_same _ _ _ _ _ _ _ _ CQ eq_refl) as [-> ->].
    pose proof (cs_bwf _ _ _ _ _ _ _ _ CB) as ->. pose proof (cs_bwf _ _ _ _ _ _ _ _ CQ) as ->. pose proof (cs_loan _ _ _ _ _ _ _ _ CB). pose proof (cs_loan _ _ _ _ _ _ _ _ CQ).
    rewrite !Z.min_l by lia. destruct s as [a b c d [? ? ? ? ? ? ? ?]]; reflexivity.
Qed.
Lemma settle_funds_spec pf s dao ok oo oo' bv bv' qv qv' now s' rec loans : state_ok s ->
  settle_funds pf s dao ok oo oo' bv bv' qv qv' now = Some (s', rec, loans) -> settled pf s s' dao oo oo' bv bv' qv qv' rec loans.
Proof.
  intros OK H. unfold settle_funds in H. destruct (charge_fees s oo ok now) as [[s1 l]|] eqn:C; [|discriminate].
  destruct (settle_changes _ _ _ _ _ _ _ _ _ _) as [[[s2 r] cs]|] eqn:S; [|discriminate]. apply some_inj in H. do 2 (apply pair_equal_spec in H as [H ?]). subst s2 r l.
  apply (settled_spec _ _ _ _ _ _ _ _ _ _ _ _ _ _ _ _ OK C S).
Qed.
Lemma force_cancel_inv e s hc flag op force oo oo' bv bv' qv qv' now wb wq s' f' r :
  force_cancel e s hc flag op force oo oo' bv bv' qv qv' now wb wq = Some (s', f', r) ->
  exists maint lend, health hc HMaint = Some maint /\ health hc HLiqEnd = Some lend /\
  let l := fst (check_liquidatable flag maint lend) in let f := snd (check_liquidatable flag maint lend) in
  match r with
  | None => s' = s /\ f' = f /\ op = true /\ l <> Liquidatable /\ force = false
  | Some (hc', rec, loans) => (op = false \/ l = Liquidatable \/ force = true) /\
      exists s1 bc qc hc1 hc2 i h', charge_fees s oo true now = Some (s1, loans) /\ settle_changes (se_pf e) s1 true oo oo' bv bv' qv qv' now = Some (s', rec, (bc, qc)) /\
        adjust_token_balance hc (se_base e) bc wb = Some hc1 /\ adjust_token_balance hc1 (se_quote e) qc wq = Some hc2 /\
        market_pos (hc_serum hc2) (se_market e) = Some i /\ recompute_serum (se_pf e) hc2 i (ss_so s') oo oo' = Some hc' /\
        health hc' HLiqEnd = Some h' /\ f' = recover f h'
  end.
Proof.
  unfold force_cancel. destruct (health hc HMaint) as [maint|]; [|discriminate]. destruct (health hc HLiqEnd) as [lend|]; [|discriminate].
  intros H. exists maint, lend. split; [reflexivity|]. split; [reflexivity|]. destruct (check_liquidatable flag maint lend) as [l f]. cbn [fst snd]. cbv zeta.
  destruct (negb op || match l with Liquidatable => true | _ => false end || force) eqn:G; cbn [negb] in H.
  - destruct (charge_fees s oo true now) as [[s1 loans]|] eqn:C; [|discriminate].
    destruct (settle_changes _ _ _ _ _ _ _ _ _ _) as [[[s2 rc] [bc qc]]|] eqn:S; [|discriminate].
    destruct (adjust_token_balance hc _ _ _) as [hc1|] eqn:A1; [|discriminate]. destruct (adjust_token_balance hc1 _ _ _) as [hc2|] eqn:A2; [|discriminate].
    destruct (market_pos _ _) as [i|] eqn:MP; [|discriminate]. destruct (recompute_serum _ _ _ _ _ _) as [hc3|] eqn:RS; [|discriminate].
    destruct (health hc3 HLiqEnd) as [h'|] eqn:HH; [|discriminate]. apply some_inj in H. do 2 (apply pair_equal_spec in H as [H ?]). subst s2 f' r.
    split.
    + apply orb_prop in G as [G|G]; [apply orb_prop in G as [G|G]|]; [left; destruct op; [discriminate|reflexivity]|right; left; destruct l; try discriminate; reflexivity|right; right; exact G].
    + exists s1, bc, qc, hc1, hc2, i, h'. do 7 (split; [first [reflexivity|assumption]|]). reflexivity.
  - apply some_inj in H. do 2 (apply pair_equal_spec in H as [H ?]). subst s' f' r. apply orb_false_iff in G as [G G3]. apply orb_false_iff in G as [G1 G2].
    do 2 (split; [reflexivity|]). split; [destruct op; [reflexivity|discriminate]|]. split; [destruct l; discriminate|exact G3].
Qed.

(** ** placing *)
Definition payer_pot (bid : bool) (s : sstate) : Z := if bid then so_pot_quote (ss_so s) else so_pot_base (ss_so s).
Definition pot_of (base : bool) (pf : pfun) (so : sorders) (oo : openorders) : option Z := if base then potential_base pf so oo else potential_quote pf so oo.
Lemma side_same b b1 p : b_di b1 = b_di b -> b_bi b1 = b_bi b -> b_lof b1 = b_lof b -> side_ok b p -> side_ok b1 p.
Proof. intros A B C. unfold side_ok. rewrite A, B, C. auto. Qed.

Record placed (e : senv) (s s' : sstate) (pl : placement) : Prop := {
  pd_lots : 0 < pl_lots pl;
  pd_market : pl_market_reduce pl = false;
  pd_sent : pl_vault' pl <= pl_vault pl;
  pd_payer : side_moved 1 (payer_bank (pl_bid pl) s) (payer_bank (pl_bid pl) s') (payer_pos (pl_bid pl) s) (payer_pos (pl_bid pl) s') (of_int (pl_vault' pl - pl_vault pl)) 0;
  pd_receiver : receiver_bank (pl_bid pl) s' = set_serum (receiver_bank (pl_bid pl) s) (b_serum (receiver_bank (pl_bid pl) s'));
  pd_rpos : payer_pos (negb (pl_bid pl)) s' = payer_pos (negb (pl_bid pl)) s;
  pd_rbwf : payer_bwf (negb (pl_bid pl)) s' = payer_bwf (negb (pl_bid pl)) s;
  pd_in : pl_vault' pl = pl_vault pl -> 0 <= payer_bwf (pl_bid pl) s -> payer_bwf (pl_bid pl) s' = payer_bwf (pl_bid pl) s;
  pd_out : pl_vault' pl < pl_vault pl ->
    payer_bwf (pl_bid pl) s' = payer_bwf (pl_bid pl) s + to_int (debt (payer_bank (pl_bid pl) s') (payer_pos (pl_bid pl) s') - debt (payer_bank (pl_bid pl) s) (payer_pos (pl_bid pl) s)) /\
    0 <= to_int (debt (payer_bank (pl_bid pl) s') (payer_pos (pl_bid pl) s') - debt (payer_bank (pl_bid pl) s) (payer_pos (pl_bid pl) s)) <= pl_vault pl - pl_vault' pl;
  pd_prices : same_prices (track (ss_so s) (pl_bid pl) (pl_lots pl) (pl_slots pl) (pl_slots' pl)) (ss_so s');
  pd_pot_payer : pot_of (negb (pl_bid pl)) (se_pf e) (ss_so s') (pl_oo' pl) = Some (payer_pot (pl_bid pl) s');
  pd_pot_receiver : pl_v2 pl = true -> pot_of (pl_bid pl) (se_pf e) (ss_so s') (pl_oo' pl) = Some (payer_pot (negb (pl_bid pl)) s');
  pd_pot_receiver1 : pl_v2 pl = false -> payer_pot (negb (pl_bid pl)) s' = payer_pot (negb (pl_bid pl)) s;
  pd_bpot : pot_moved (ss_bb s) (ss_bb s') (so_pot_base (ss_so s)) (so_pot_base (ss_so s'));
  pd_qpot : pot_moved (ss_qb s) (ss_qb s') (so_pot_quote (ss_so s)) (so_pot_quote (ss_so s')) }.

Record after_potentials (e : senv) (s s' : sstate) (pl : placement) : Prop := {
  ap_bb : ss_bb s' = set_serum (ss_bb s) (b_serum (ss_bb s'));
  ap_qb : ss_qb s' = set_serum (ss_qb s) (b_serum (ss_qb s'));
  ap_pos : ss_bp s' = ss_bp s /\ ss_qp s' = ss_qp s;
  ap_so : ss_so s' = set_pots (ss_so s) (so_pot_base (ss_so s')) (so_pot_quote (ss_so s'));
  ap_pot_payer : pot_of (negb (pl_bid pl)) (se_pf e) (ss_so s) (pl_oo' pl) = Some (payer_pot (pl_bid pl) s');
  ap_pot_receiver : pl_v2 pl = true -> pot_of (pl_bid pl) (se_pf e) (ss_so s) (pl_oo' pl) = Some (payer_pot (negb (pl_bid pl)) s');
  ap_pot_receiver1 : pl_v2 pl = false -> payer_pot (negb (pl_bid pl)) s' = payer_pot (negb (pl_bid pl)) s;
  ap_bpot : pot_moved (ss_bb s) (ss_bb s') (so_pot_base (ss_so s)) (so_pot_base (ss_so s'));
  ap_qpot : pot_moved (ss_qb s) (ss_qb s') (so_pot_quote (ss_so s)) (so_pot_quote (ss_so s')) }.
Lemma pot_moved_refl b o : pot_moved b b o o. Proof. unfold pot_moved. rewrite Z.leb_refl. lia. Qed.
Lemma set_serum_same b : b = set_serum b (b_serum b). Proof. destruct b; reflexivity. Qed.
Lemma set_pots_same so : so = set_pots so (so_pot_base so) (so_pot_quote so). Proof. destruct so; reflexivity. Qed.
Lemma potentials_spec e s s' pl :
  (if pl_v2 pl then update_potentials (se_pf e) s (pl_oo' pl) else update_potentials_payer (se_pf e) (pl_bid pl) s (pl_oo' pl)) = Some s' -> after_potentials e s s' pl.
Proof.
  intros H. destruct (pl_v2 pl) eqn:V.
  - unfold update_potentials in H. destruct (potential_base _ _ _) as [nb|] eqn:PB; [|discriminate]. destruct (potential_quote _ _ _) as [nq|] eqn:PQ; [|discriminate].
    destruct (update_potential (ss_bb s) _ _) as [bb|] eqn:UB; [|discriminate]. destruct (update_potential (ss_qb s) _ _) as [qb|] eqn:UQ; [|discriminate].
    apply some_inj in H. subst s'.
    constructor; cbn [ss_bb ss_qb ss_bp ss_qp ss_so set_pots so_pot_base so_pot_quote]; [exact (update_potential_same _ _ _ _ UB)|exact (update_potential_same _ _ _ _ UQ)|auto|reflexivity| | |congruence|exact (update_potential_moved _ _ _ _ UB)|exact (update_potential_moved _ _ _ _ UQ)];
    unfold pot_of, payer_pot; destruct (pl_bid pl); cbn [negb ss_so set_pots so_pot_base so_pot_quote]; auto.
  - unfold update_potentials_payer in H. destruct (pl_bid pl) eqn:B.
    + destruct (potential_quote _ _ _) as [nq|] eqn:PQ; [|discriminate]. destruct (update_potential (ss_qb s) _ _) as [qb|] eqn:UQ; [|discriminate]. apply some_inj in H. subst s'.
      constructor; rewrite ?B; unfold pot_of, payer_pot; cbn [negb ss_bb ss_qb ss_bp ss_qp ss_so set_pots so_pot_base so_pot_quote];
      [apply set_serum_same|exact (update_potential_same _ _ _ _ UQ)|auto|reflexivity|exact PQ|congruence|reflexivity|apply pot_moved_refl|exact (update_potential_moved _ _ _ _ UQ)].
    + destruct (potential_base _ _ _) as [nq|] eqn:PQ; [|discriminate]. destruct (update_potential (ss_bb s) _ _) as [qb|] eqn:UQ; [|discriminate]. apply some_inj in H. subst s'.
      constructor; rewrite ?B; unfold pot_of, payer_pot; cbn [negb ss_bb ss_qb ss_bp ss_qp ss_so set_pots so_pot_base so_pot_quote];
      [exact (update_potential_same _ _ _ _ UQ)|apply set_serum_same|auto|reflexivity|exact PQ|congruence|reflexivity|exact (update_potential_moved _ _ _ _ UQ)|apply pot_moved_refl].
Qed.

(** the checks and the cache of a placement *)
Record place_checked (e : senv) (s s' : sstate) (hc hc' : cache) (flag flag' : bool) (pl : placement) : Prop := {
  pc_receiver_limit : check_deposit_and_oo_limit (receiver_bank (pl_bid pl) s') = true;
  pc_borrow : native (payer_bank (pl_bid pl) s) (payer_pos (pl_bid pl) s) < of_int (pl_vault pl - pl_vault' pl) ->
    let b := payer_bank (pl_bid pl) s' in
    borrows_reduce_only b = false /\ enforce_max_utilization b (b_max_util b) = true /\ check_net_borrows b (pl_oracle pl) = true /\ check_deposit_and_oo_limit b = true;
  pc_deposit : of_int (pl_vault pl - pl_vault' pl) <= native (payer_bank (pl_bid pl) s) (payer_pos (pl_bid pl) s) -> enforce_max_utilization (payer_bank (pl_bid pl) s') fone = true;
  pc_band : free_bits (pl_slots pl) = free_bits (pl_slots' pl) \/ pl_band pl = true;
  pc_cache : exists hc1 hc2 i pj, let payer := if pl_bid pl then se_quote e else se_base e in let receiver := if pl_bid pl then se_base e else se_quote e in
    token_pos (hc_tokens hc) payer = Some pj /\
    adjust_token_balance hc receiver 0 (pl_wr pl) = Some hc1 /\
    adjust_token_balance hc1 payer (native (payer_bank (pl_bid pl) s') (payer_pos (pl_bid pl) s') - native (payer_bank (pl_bid pl) s) (payer_pos (pl_bid pl) s)) (pl_wp pl) = Some hc2 /\
    market_pos (hc_serum hc2) (se_market e) = Some i /\ recompute_serum (se_pf e) hc2 i (ss_so s') (pl_oo pl) (pl_oo' pl) = Some hc';
  pc_markets : forall mi mb mq, let receiver := if pl_bid pl then se_base e else se_quote e in In (mi, mb, mq) (pl_markets pl) -> mb = receiver \/ mq = receiver ->
    exists si, In si (hc_serum hc') /\ si_market si = mi;
  pc_reduce : deposits_reduce_only (receiver_bank (pl_bid pl) s) = true ->
    exists rj t pot, token_pos (hc_tokens hc) (if pl_bid pl then se_base e else se_quote e) = Some rj /\ nth_error (hc_tokens hc') rj = Some t /\
      sum_potential hc' (hc_serum hc') rj = Some pot /\ ti_spot t + pot < fone;
  pc_health : if pl_region pl then flag' = flag else
    exists pre pre_end post, health hc HInit = Some pre /\ health hc HLiqEnd = Some pre_end /\ pre_check flag pre pre_end = Some flag' /\
      health hc' HInit = Some post /\ post_check pre post = true }.
Lemma same_bits_eq A B : same_bits A B = true <-> A = B.
Proof. unfold same_bits. destruct (list_eq_dec bool_dec A B); split; auto; discriminate. Qed.
Lemma place_spec e s hc flag pl s' flag' hc' : state_ok s -> place_order e s hc flag pl = Some (s', flag', hc') ->
  placed e s s' pl /\ place_checked e s s' hc hc' flag flag' pl.
Proof.
  intros [OB OQ] H. unfold place_order in H.
  destruct (Z.ltb_spec 0 (pl_lots pl)) as [L|]; cbn [guard] in H; [|discriminate].
  destruct (pl_market_reduce pl) eqn:MR; cbn [negb guard] in H; [discriminate|].
  destruct (token_pos (hc_tokens hc) (if pl_bid pl then se_quote e else se_base e)) as [pj|] eqn:TP; [|discriminate].
  destruct (token_pos (hc_tokens hc) (if pl_bid pl then se_base e else se_quote e)) as [rj|] eqn:TR; [|discriminate].
  destruct (if pl_region pl then _ else _) as [[f1 pre]|] eqn:PRE in H; [|discriminate].
  destruct (guard (Z.max 0 _ <=? _)) eqn:G0; [|discriminate].
  set (s0 := mkSS _ _ _ _ (track _ _ _ _ _)) in H.
  destruct (Z.leb_spec (pl_vault' pl) (pl_vault pl)) as [VL|]; cbn [guard] in H; [|discriminate].
  destruct (if pl_v2 pl then _ else _) as [s1|] eqn:UP in H; [|discriminate]. apply potentials_spec in UP.
  destruct (vault_difference _ _ _ _ _ _) as [[[[b p] bwf] change]|] eqn:VD; [|discriminate].
  pose proof (ap_bb _ _ _ _ UP) as AB. pose proof (ap_qb _ _ _ _ UP) as AQ. pose proof (ap_pos _ _ _ _ UP) as [ABP AQP]. pose proof (ap_so _ _ _ _ UP) as AS.
  change (ss_bb s0) with (ss_bb s) in AB. change (ss_qb s0) with (ss_qb s) in AQ. change (ss_bp s0) with (ss_bp s) in ABP. change (ss_qp s0) with (ss_qp s) in AQP.
  assert (PB : payer_bank (pl_bid pl) s1 = set_serum (payer_bank (pl_bid pl) s) (b_serum (payer_bank (pl_bid pl) s1))) by (unfold payer_bank; destruct (pl_bid pl); assumption).
  assert (RB : receiver_bank (pl_bid pl) s1 = set_serum (receiver_bank (pl_bid pl) s) (b_serum (receiver_bank (pl_bid pl) s1))) by (unfold receiver_bank; destruct (pl_bid pl); assumption).
  assert (PP : payer_pos (pl_bid pl) s1 = payer_pos (pl_bid pl) s) by (unfold payer_pos; destruct (pl_bid pl); assumption).
  assert (PW : payer_bwf (pl_bid pl) s1 = payer_bwf (pl_bid pl) s) by (unfold payer_bwf; rewrite AS; destruct (pl_bid pl); subst s0; cbn [ss_so]; unfold track; destruct (if same_bits _ _ then _ else _) as [[[? ?] ?] ?]; reflexivity).
  assert (OKP : side_ok (payer_bank (pl_bid pl) s) (payer_pos (pl_bid pl) s)) by (unfold payer_bank, payer_pos; destruct (pl_bid pl); assumption).
  assert (OKP1 : side_ok (payer_bank (pl_bid pl) s1) (payer_pos (pl_bid pl) s1)) by (rewrite PP; refine (side_same _ _ _ _ _ _ OKP); rewrite PB; reflexivity).
  apply vd_spec in VD; [|exact OKP1].
  set (s2 := set_payer _ _ _ _ _) in H.
  destruct (check_deposit_and_oo_limit (receiver_bank (pl_bid pl) s2)) eqn:CL; cbn [guard] in H; [|discriminate].
  destruct (if native _ _ <? _ then _ else _) as [u1|] eqn:BC in H; [|discriminate].
  destruct (same_bits (free_bits (pl_slots pl)) (free_bits (pl_slots' pl)) || pl_band pl) eqn:BD; cbn [guard] in H; [|discriminate].
  destruct (adjust_token_balance hc _ 0 _) as [hc1|] eqn:A1; [|discriminate]. destruct (adjust_token_balance hc1 _ _ _) as [hc2|] eqn:A2; [|discriminate].
  destruct (market_pos _ _) as [i|] eqn:MP; [|discriminate]. destruct (recompute_serum _ _ _ _ _ _) as [hc3|] eqn:RS; [|discriminate].
  destruct (forallb _ (pl_markets pl)) eqn:FM; cbn [guard] in H; [|discriminate].
  destruct (if deposits_reduce_only _ then _ else _) as [u2|] eqn:RO in H; [|discriminate].
  destruct (if pl_region pl then _ else _) as [u3|] eqn:HE in H; [|discriminate].
  apply some_inj in H. do 2 (apply pair_equal_spec in H as [H ?]). subst s' flag' hc'.
  assert (N1 : native (payer_bank (pl_bid pl) s1) (payer_pos (pl_bid pl) s1) = native (payer_bank (pl_bid pl) s) (payer_pos (pl_bid pl) s)).
  { rewrite PP, PB. reflexivity. }
  assert (D1 : debt (payer_bank (pl_bid pl) s1) (payer_pos (pl_bid pl) s1) = debt (payer_bank (pl_bid pl) s) (payer_pos (pl_bid pl) s)) by (unfold debt; rewrite N1; reflexivity).
  assert (S2 : payer_bank (pl_bid pl) s2 = b /\ payer_pos (pl_bid pl) s2 = p /\ payer_bwf (pl_bid pl) s2 = bwf /\ receiver_bank (pl_bid pl) s2 = receiver_bank (pl_bid pl) s1 /\
    payer_pos (negb (pl_bid pl)) s2 = payer_pos (negb (pl_bid pl)) s1 /\ payer_bwf (negb (pl_bid pl)) s2 = payer_bwf (negb (pl_bid pl)) s1 /\
    so_bid_hi (ss_so s2) = so_bid_hi (ss_so s1) /\ so_bid_lo (ss_so s2) = so_bid_lo (ss_so s1) /\ so_ask_lo (ss_so s2) = so_ask_lo (ss_so s1) /\ so_ask_hi (ss_so s2) = so_ask_hi (ss_so s1) /\
    so_pot_base (ss_so s2) = so_pot_base (ss_so s1) /\ so_pot_quote (ss_so s2) = so_pot_quote (ss_so s1)).
  { subst s2. unfold set_payer, payer_bank, payer_pos, payer_bwf, receiver_bank. destruct (pl_bid pl); cbn [negb ss_bb ss_qb ss_bp ss_qp ss_so so_bbwf so_qbwf so_bid_hi so_bid_lo so_ask_lo so_ask_hi so_pot_base so_pot_quote]; do 11 (split; [reflexivity|]); reflexivity. }
  destruct S2 as (SB & SP & SW & SR & SRP & SRW & SH1 & SH2 & SH3 & SH4 & SH5 & SH6).
  split.
  - constructor; rewrite ?SB, ?SP, ?SW, ?SR, ?SRP, ?SRW.
    + exact L.
    + exact MR.
    + exact VL.
    + pose proof (vd_side _ _ _ _ _ _ _ _ VD) as M. rewrite PP in M. rewrite PB in M. destruct M as [M1 M2 M3 M4 M5 M6 M7]. constructor; assumption.
    + exact RB.
    + unfold payer_pos. destruct (pl_bid pl); assumption.
    + unfold payer_bwf; rewrite AS; destruct (pl_bid pl); subst s0; cbn [ss_so]; unfold track; destruct (if same_bits _ _ then _ else _) as [[[? ?] ?] ?]; reflexivity.
    + intros VE W. rewrite (vd_in _ _ _ _ _ _ _ _ VD); rewrite ?PW; lia.
    + intros VE. destruct (vd_out _ _ _ _ _ _ _ _ VD) as [O1 O2]; [lia|]. rewrite PW in O1. rewrite D1 in O1, O2. split; [exact O1|lia].
    + unfold same_prices. rewrite SH1, SH2, SH3, SH4, AS. subst s0. cbn [ss_so set_pots so_bid_hi so_bid_lo so_ask_lo so_ask_hi]. auto.
    + pose proof (ap_pot_payer _ _ _ _ UP) as Q. unfold pot_of, payer_pot in *. destruct (pl_bid pl); cbn [negb] in *.
      * rewrite SH6, <- Q. apply potential_quote_hi. rewrite SH4, AS. reflexivity.
      * rewrite SH5, <- Q. apply potential_base_lo. rewrite SH2, AS. reflexivity.
    + intros V. pose proof (ap_pot_receiver _ _ _ _ UP V) as Q. unfold pot_of, payer_pot in *. destruct (pl_bid pl); cbn [negb] in *.
      * rewrite SH5, <- Q. apply potential_base_lo. rewrite SH2, AS. reflexivity.
      * rewrite SH6, <- Q. apply potential_quote_hi. rewrite SH4, AS. reflexivity.
    + intros V. pose proof (ap_pot_receiver1 _ _ _ _ UP V) as Q. unfold payer_pot in *. subst s0. cbn [ss_so] in Q. unfold track in Q.
      destruct (if same_bits _ _ then _ else _) as [[[? ?] ?] ?]; destruct (pl_bid pl); cbn [negb so_pot_base so_pot_quote] in *; congruence.
    + pose proof (ap_bpot _ _ _ _ UP) as Q. subst s0. cbn [ss_so ss_bb] in Q. rewrite SH5.
      assert (E : so_pot_base (track (ss_so s) (pl_bid pl) (pl_lots pl) (pl_slots pl) (pl_slots' pl)) = so_pot_base (ss_so s)) by (unfold track; destruct (if same_bits _ _ then _ else _) as [[[? ?] ?] ?]; reflexivity).
      rewrite E in Q. refine (pot_moved_serum _ _ _ _ _ _ _ _ Q); [reflexivity|]. pose proof (vd_serum _ _ _ _ _ _ _ _ VD) as VS. unfold payer_bank, receiver_bank in *. destruct (pl_bid pl); congruence.
    + pose proof (ap_qpot _ _ _ _ UP) as Q. subst s0. cbn [ss_so ss_qb] in Q. rewrite SH6.
      assert (E : so_pot_quote (track (ss_so s) (pl_bid pl) (pl_lots pl) (pl_slots pl) (pl_slots' pl)) = so_pot_quote (ss_so s)) by (unfold track; destruct (if same_bits _ _ then _ else _) as [[[? ?] ?] ?]; reflexivity).
      rewrite E in Q. refine (pot_moved_serum _ _ _ _ _ _ _ _ Q); [reflexivity|]. pose proof (vd_serum _ _ _ _ _ _ _ _ VD) as VS. unfold payer_bank, receiver_bank in *. destruct (pl_bid pl); congruence.
  - rewrite N1 in *. constructor; rewrite ?SB, ?SP.
    + exact CL.
    + intros LT. apply Z.ltb_lt in LT. rewrite LT in BC. cbv zeta. destruct (_ && _) eqn:BG in BC; [|discriminate].
      apply andb_prop in BG as [BG ?]. apply andb_prop in BG as [BG ?]. apply andb_prop in BG as [BG ?]. apply negb_true_iff in BG. auto.
    + intros LE. destruct (Z.ltb_spec (native (payer_bank (pl_bid pl) s) (payer_pos (pl_bid pl) s)) (of_int (pl_vault pl - pl_vault' pl))) in BC; [lia|]. destruct (enforce_max_utilization b fone); [reflexivity|discriminate].
    + apply orb_prop in BD as [BD|BD]; [left; apply same_bits_eq, BD|right; exact BD].
    + exists hc1, hc2, i, pj. cbv zeta. rewrite (vd_change _ _ _ _ _ _ _ _ VD), N1 in A2. auto.
    + intros mi mb mq r IN OR. rewrite forallb_forall in FM. specialize (FM _ IN). cbn beta iota in FM.
      assert (X : (mb =? r) || (mq =? r) = true) by (destruct OR as [->| ->]; rewrite Z.eqb_refl; [reflexivity|apply orb_true_r]). fold r in FM. rewrite X in FM. cbn [negb orb] in FM.
      unfold in_cache in FM. apply existsb_exists in FM as (si & I & E). apply Z.eqb_eq in E. exists si. auto.
    + intros RD. rewrite RD in RO. destruct (nth_error (hc_tokens hc3) rj) as [t|] eqn:NT; [|discriminate].
      destruct (sum_potential hc3 _ rj) as [pot|] eqn:SPt; [|discriminate]. destruct (Z.ltb_spec (ti_spot t + pot) fone) as [LTT|]; [|discriminate].
      exists rj, t, pot. auto.
    + destruct (pl_region pl).
      * apply some_inj in PRE. apply pair_equal_spec in PRE as [-> _]. reflexivity.
      * destruct (health hc HInit) as [h|]; [|discriminate]. destruct (health hc HLiqEnd) as [he|]; [|discriminate]. destruct (pre_check flag h he) as [f2|] eqn:PC; [|discriminate].
        apply some_inj in PRE. apply pair_equal_spec in PRE as [-> <-]. destruct (health hc3 HInit) as [post|] eqn:HP; [|discriminate]. destruct (post_check h post) eqn:PO; [|discriminate].
        exists h, he, post. auto.
Qed.
