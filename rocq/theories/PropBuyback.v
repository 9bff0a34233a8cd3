(** C34: buyback fees accrue and expire. *)
From Coq Require Import List ZArith Lia Bool.
From Verif Require Import Fixed Buyback BuybackSpec BuybackFacts.
Import ListNotations.
Open Scope Z_scope.

(** C34: after any history with a fixed expiry interval, what an account can use is
    exactly what a ledger of its earned fees, used oldest first, still has in lots
    of the current and the previous period. *)
Theorem C34_ledger (I now : Z) (os : list bf_op) (f f' : bfees) :
  0 < I -> orderly 0 os -> earned os <= max_u64 ->
  bf_run I bf_new os = Some f ->
  fold_left (fun _ o => op_time o) os 0 <= now ->
  expire_fees f now I = Some f' ->
  fees_accrued f' = total (usable_lots I now (ledger I os)).
Proof.
  intros HI O Hm H Hn Ex.
  destruct (run_agrees I os HI 0 bf_new [] (-1) f (Z.le_refl 0) (agrees_new I 0 HI (Z.le_refl 0)) O) as (p & A); [exact Hm|exact H|].
  assert (0 <= now). { clear -O Hn. assert (G : forall os t, orderly t os -> t <= fold_left (fun _ o => op_time o) os t).
    { clear. induction os as [|o os IH]; intros t; cbn [fold_left orderly]; [lia|]. intros (? & _ & Q). apply IH in Q. lia. }
    specialize (G _ _ O). lia. }
  pose proof (expire_agrees I _ f _ p now f' HI H0 A Hn Ex) as A'.
  unfold ledger. rewrite <- (agrees_avail I now f' _ HI A'). unfold fees_accrued, sat_add. apply Z.min_l.
  rewrite (agrees_avail I now f' _ HI A').
  pose proof (total_filter (fun p => usable I now (fst p)) _ (ag_nonneg _ _ _ _ _ A')) as T.
  change (total (usable_lots I now (fold_left (ledger_step I) os [])) <= total (fold_left (ledger_step I) os [])) in T.
  assert (G : forall os t l, orderly t os -> nonneg l -> total (fold_left (ledger_step I) os l) <= total l + earned os /\ nonneg (fold_left (ledger_step I) os l)).
  { clear. induction os as [|o os IH]; intros t l; cbn [fold_left orderly earned]; [split; [lia|assumption]|].
    intros (_ & Ha & Q) N. destruct o as [u a|u a]; cbn [op_amount ledger_step] in *.
    - specialize (IH _ (l ++ [(u, a)]) Q). rewrite total_app in IH. cbn [total] in IH. destruct IH as [I1 I2].
      + intros x Hx. apply in_app_or in Hx. destruct Hx as [Hx|[<-|[]]]; [apply N, Hx|exact Ha].
      + split; [lia|exact I2].
    - specialize (IH _ (use_oldest a (usable_lots I u l)) Q). destruct IH as [I1 I2].
      + apply use_nonneg, nonneg_filter, N.
      + pose proof (usable_total_le I u l a Ha N). split; [lia|exact I2]. }
  destruct (G os 0 [] O) as [G1 _]; [intros x []|]. cbn [total] in G1. lia.
Qed.
Definition ex_hist : list bf_op := [BEarn 1000 15; BSpend 1000 2; BEarn 1010 5; BSpend 1010 15; BEarn 1021 1].
Example C34_ledger_ex : orderly 0 ex_hist /\ earned ex_hist <= max_u64 /\
  exists f f', bf_run 10 bf_new ex_hist = Some f /\ expire_fees f 1025 10 = Some f' /\ fees_accrued f' = 4.
Proof.
  split; [repeat split; vm_compute; discriminate|]. split; [vm_compute; discriminate|].
  eexists _, _. split; [vm_compute; reflexivity|]. (split; [vm_compute; reflexivity|]). vm_compute; reflexivity.
Qed.
Print Assumptions C34_ledger.

(** C34: fees can be used for at least one interval after they were earned, and never
    two intervals after *)
Theorem C34_lifetime (I t now : Z) : 0 < I ->
  (t <= now <= t + I -> usable I now t = true) /\ (t + 2 * I <= now -> usable I now t = false).
Proof.
  intros HI. unfold usable. split.
  - intros [H1 H2]. apply Z.leb_le. pose proof (Z.div_le_mono now (t + I) I HI H2) as D.
    replace (t + I) with (t + 1 * I) in D by ring. rewrite Z.div_add in D by lia. exact D.
  - intros H. apply Z.leb_gt. pose proof (Z.div_le_mono (t + 2 * I) now I HI H) as D.
    rewrite Z.div_add in D by lia. lia.
Qed.
Example C34_lifetime_ex : usable 10 1019 1009 = true /\ usable 10 1029 1009 = false.
Proof. (split; [vm_compute; reflexivity|]). vm_compute; reflexivity. Qed.
Print Assumptions C34_lifetime.

(** C34: using fees succeeds exactly for what the ledger has left; then exactly the amount
    used is gone *)
Theorem C34_spend (I now a : Z) (os : list bf_op) (f : bfees) :
  0 < I -> orderly 0 (os ++ [BSpend now a]) -> earned os <= max_u64 ->
  now + 2 * I <= max_u64 ->
  bf_run I bf_new os = Some f ->
  ((exists f', bf_step I f (BSpend now a) = Some f') <-> a <= total (usable_lots I now (ledger I os))) /\
  (forall f', bf_step I f (BSpend now a) = Some f' ->
     fees_accrued f' = total (usable_lots I now (ledger I os)) - a).
Proof.
  intros HI O Hm Hb H.
  assert (O' : orderly 0 os /\ fold_left (fun _ o => op_time o) os 0 <= now /\ 0 <= a).
  { clear -O. revert O. assert (G : forall z, orderly z (os ++ [BSpend now a]) -> orderly z os /\ fold_left (fun _ o => op_time o) os z <= now /\ 0 <= a); [|exact (G 0)]. induction os as [|o os IH]; intros z; cbn [app orderly fold_left op_time op_amount].
    - intros (? & ? & _). split; [exact Logic.I|]. split; assumption.
    - intros (? & ? & Q). apply IH in Q. tauto. }
  destruct O' as (O1 & O2 & O3).
  destruct (run_agrees I os HI 0 bf_new [] (-1) f (Z.le_refl 0) (agrees_new I 0 HI (Z.le_refl 0)) O1 Hm H) as (p & A).
  set (tm := fold_left (fun _ o => op_time o) os 0) in *.
  assert (Htm : 0 <= tm).
  { unfold tm. clear -O1. assert (G : forall os t, orderly t os -> t <= fold_left (fun _ o => op_time o) os t).
    { clear. induction os as [|o os IH]; intros t; cbn [fold_left orderly]; [lia|]. intros (? & _ & Q). apply IH in Q. lia. }
    apply G, O1. }
  assert (X : exists f1, expire_fees f now I = Some f1).
  { unfold expire_fees. destruct ((I =? 0) || (now <? bf_expiry f)) eqn:E; [eexists; reflexivity|].
    apply orb_false_elim in E. destruct E as [E1 E2]. apply Z.ltb_ge in E2.
    pose proof (ag_exp _ _ _ _ _ A) as E3. pose proof (ag_tm _ _ _ _ _ A) as E4.
    pose proof (Z.div_mod now I). pose proof (Z.mod_pos_bound now I HI).
    assert (Hn : 0 <= now / I) by (apply Z.div_pos; lia).
    assert (Hp : -1 <= p). { destruct (Z.le_gt_cases (-1) p); [assumption|]. exfalso.
      clear -A HI H O1 Htm H2. (* the expiry time of a run is never negative *)
      assert (G : forall os f f', 0 <= bf_expiry f -> bf_run I f os = Some f' -> 0 <= bf_expiry f').
      { clear -HI. induction os as [|o os IH]; intros f f'; cbn [bf_run]; [intros ? E; inversion E; subst; assumption|].
        intros H0. destruct (bf_step I f o) as [f1|] eqn:E; [|discriminate]. apply IH.
        assert (X : forall n g, expire_fees f n I = Some g -> 0 <= bf_expiry g).
        { intros n g. unfold expire_fees, u64_ok. destruct (_ || _); [intros Q; inversion Q; subst; assumption|].
          destruct (_ && _); [|discriminate]. destruct ((0 <=? (n / I + 1) * I) && _) eqn:Eb; [|discriminate].
          intros Q; inversion Q; cbn [bf_expiry]. apply andb_prop in Eb. apply Z.leb_le, Eb. }
        destruct o as [n b|n b]; cbn [bf_step] in E; destruct (expire_fees f n I) as [g|] eqn:Eg; try discriminate; apply X in Eg.
        - inversion E; exact Eg.
        - unfold reduce_fees in E. destruct (_ <? _); [destruct (_ <=? _); [|discriminate]|]; inversion E; exact Eg. }
      pose proof (G os bf_new f (Z.le_refl 0) H) as G'. rewrite (ag_exp _ _ _ _ _ A) in G'. nia. }
    unfold u64_ok. rewrite E3 in *.
    assert (0 <= (p + 1) * I) by nia.
    replace ((0 <=? (p + 1) * I + I) && ((p + 1) * I + I <=? max_u64)) with true
      by (symmetry; apply andb_true_intro; split; apply Z.leb_le; nia).
    replace ((0 <=? (now / I + 1) * I) && ((now / I + 1) * I <=? max_u64)) with true
      by (symmetry; apply andb_true_intro; split; apply Z.leb_le; nia).
    eexists; reflexivity. }
  destruct X as (f1 & Ex). cbn [bf_step]. rewrite Ex.
  pose proof (expire_agrees I tm f _ p now f1 HI (Z.le_trans _ _ _ Htm O2) A O2 Ex) as A1.
  split; [apply spend_possible; assumption|].
  intros f' Hr. pose proof (spend_agrees I now f1 _ a f' HI O3 A1 Hr) as A2.
  assert (Hle : a <= total (usable_lots I now (ledger I os))) by (apply (spend_possible I now f1 _ a HI O3 A1); exists f'; exact Hr).
  pose proof (agrees_avail I now f1 _ HI A1) as V1.
  assert (V2 : bf_current f' + bf_previous f' = bf_current f1 + bf_previous f1 - a).
  { unfold reduce_fees in Hr. destruct (_ <? _); [destruct (_ <=? _); [|discriminate]|]; inversion Hr; cbn [bf_current bf_previous]; lia. }
  unfold fees_accrued, sat_add. fold (ledger I os) in V1. rewrite V2, V1. apply Z.min_l.
  pose proof (C34_ledger I now os f f1 HI O1 Hm H O2 Ex) as L. unfold fees_accrued, sat_add in L. lia.
Qed.
Example C34_spend_ex : orderly 0 (ex_hist ++ [BSpend 1025 3]) /\
  exists f f', bf_run 10 bf_new ex_hist = Some f /\ bf_step 10 f (BSpend 1025 3) = Some f' /\ fees_accrued f' = 1 /\
  bf_step 10 f (BSpend 1025 5) = None.
Proof.
  split; [repeat split; vm_compute; discriminate|].
  eexists _, _. split; [vm_compute; reflexivity|]. split; [vm_compute; reflexivity|]. (split; [vm_compute; reflexivity|]). vm_compute; reflexivity.
Qed.
Print Assumptions C34_spend.

(** C34 without expiry ([interval] = 0): everything earned and not yet used stays usable *)
Theorem C34_no_expiry (os : list bf_op) (f : bfees) :
  orderly 0 os -> earned os <= max_u64 -> bf_run 0 bf_new os = Some f ->
  fees_accrued f = earned os - (fold_right (fun o s => match o with BSpend _ a => a + s | _ => s end) 0 os).
Proof.
  intros O Hm H.
  assert (G : forall os t f f', orderly t os -> 0 <= bf_current f -> 0 <= bf_previous f ->
            bf_current f + bf_previous f + earned os <= max_u64 -> bf_run 0 f os = Some f' ->
            bf_current f' + bf_previous f' = bf_current f + bf_previous f + earned os
              - (fold_right (fun o s => match o with BSpend _ a => a + s | _ => s end) 0 os) /\
            bf_current f' + bf_previous f' <= max_u64).
  { clear. induction os as [|o os IH]; intros t f f' O H1 H2 Hm H; cbn [bf_run earned fold_right] in *.
    - inversion H; subst. lia.
    - destruct O as (_ & Ha & O).
      assert (Ne : 0 <= earned os).
      { clear -O. revert O. generalize (op_time o). induction os as [|q os IH]; intros t O; cbn [earned]; [lia|].
        destruct O as (_ & ? & O). specialize (IH _ O). destruct q; cbn [op_amount] in *; lia. }
      destruct o as [n a|n a]; cbn [bf_step op_amount] in *; unfold expire_fees in H; change (0 =? 0) with true in H; cbn [orb] in H.
      + assert (E : sat_add (bf_current f) a = bf_current f + a) by (unfold sat_add; lia).
        specialize (IH _ (accrue_fees f a) f' O). unfold accrue_fees in *. cbn [bf_current bf_previous] in *. rewrite E in *.
        destruct IH as [I1 I2]; try lia; assumption.
      + unfold reduce_fees in H. destruct (Z.ltb_spec (bf_previous f) a).
        * destruct (Z.leb_spec (a - bf_previous f) (bf_current f)); [|discriminate].
          match type of H with bf_run 0 ?g os = _ => specialize (IH _ g f' O) end. cbn [bf_current bf_previous] in IH. destruct IH; try lia; assumption.
        * match type of H with bf_run 0 ?g os = _ => specialize (IH _ g f' O) end. cbn [bf_current bf_previous] in IH. destruct IH; try lia; assumption. }
  destruct (G os 0 bf_new f O (Z.le_refl 0) (Z.le_refl 0)) as [G1 G2]; [cbn [bf_new bf_current bf_previous]; lia|exact H|].
  unfold fees_accrued, sat_add. cbn [bf_new bf_current bf_previous] in G1. lia.
Qed.
Example C34_no_expiry_ex : exists f, bf_run 0 bf_new ex_hist = Some f /\ fees_accrued f = 4 /\ bf_expiry f = 0.
Proof. eexists. split; [vm_compute; reflexivity|]. (split; [reflexivity|]). reflexivity. Qed.
Print Assumptions C34_no_expiry.

(** C34: the comment on [buyback_fees_expiry_interval] promises that fees stay usable
    for at least the interval.  That fails when the interval is changed: fees
    earned at 9 under interval 10 are gone at 11 under interval 11. *)
Theorem C34_interval_change_refuted :
  exists f f' f'', bf_step 10 bf_new (BEarn 9 100) = Some f /\ expire_fees f 10 11 = Some f' /\
    fees_accrued f' = 100 /\ expire_fees f' 11 11 = Some f'' /\ fees_accrued f'' = 0.
Proof.
  eexists _, _, _. split; [vm_compute; reflexivity|]. split; [vm_compute; reflexivity|]. split; [vm_compute; reflexivity|].
  (split; [vm_compute; reflexivity|]). vm_compute; reflexivity.
Qed.
Print Assumptions C34_interval_change_refuted.

(** C34: a buyback takes no more MNGO than the account has, gives no more fee tokens than
    the DAO has, uses no more than the accrued fees and the caller's limit; the fee tokens
    are worth at most the MNGO at its price times the bonus; it never panics for
    positive prices. *)
Theorem C34_buyback (f f' : bfees) (now interval max_usd mp fp bonus am df : Z) (b : buyback) :
  0 <= bf_current f -> 0 <= bf_previous f -> 0 < mp -> 0 < fp -> 0 < bonus -> 0 <= max_usd <= max_u64 ->
  buyback_fees f now interval max_usd mp fp bonus am df = Some (f', Some b) ->
  0 <= bb_mngo b <= am /\
  0 <= bb_fees b <= df /\
  bb_usd b <= of_int max_usd /\
  (bb_fees b * fp) * fone <= bb_mngo b * (mp * bonus) /\
  bb_fees b * fp <= bb_usd b * fone < (bb_fees b + 1) * fp /\
  exists f1, expire_fees f now interval = Some f1 /\
    bb_usd b <= of_int (fees_accrued f1) /\
    (bf_current f1 + bf_previous f1 <= max_u64 ->
     fees_accrued f' = fees_accrued f1 - ceil_int (bb_usd b)).
Proof.
  intros H1 H2 Hmp Hfp Hbo Hmax H. unfold buyback_fees in H. destruct (expire_fees f now interval) as [f1|]; [|discriminate].
  set (u0 := Z.min max_usd (fees_accrued f1)) in *. set (usd := Z.min (of_int u0) (fmul df fp)) in *.
  destruct (Z.leb_spec usd 0); [discriminate|]. destruct (Z.leb_spec am 0); [discriminate|].
  set (pr := fmul mp bonus) in *. destruct (Z.eqb_spec pr 0) as [|Hpr]; [discriminate|].
  assert (Hpr0 : 0 < pr) by (assert (0 <= pr) by (apply fmul_nonneg; lia); lia).
  set (mngo := Z.min (fdiv usd pr) am) in *. set (usd' := Z.min usd (fmul mngo pr)) in *.
  destruct (Z.eqb_spec fp 0); [lia|]. set (fees := fdiv usd' fp) in *.
  destruct (Z.ltb_spec df fees) as [|Hdf]; [discriminate|].
  destruct (reduce_fees f1 (ceil_int usd')) as [f2|] eqn:Er; [|discriminate].
  inversion H; subst f' b. cbn [bb_mngo bb_fees bb_usd]. clear H.
  assert (Hm0 : 0 <= mngo) by (unfold mngo; apply Z.min_glb; [apply fdiv_nonneg; lia|lia]).
  assert (Hu0 : 0 <= usd') by (unfold usd'; apply Z.min_glb; [lia|apply fmul_nonneg; lia]).
  pose proof (fdiv_pos_bounds usd' fp Hu0 Hfp) as F. fold fees in F.
  pose proof (fmul_bounds mngo pr) as F2. pose proof (fmul_bounds mp bonus) as F3. fold pr in F3.
  assert (Hu2 : usd' <= fmul mngo pr) by apply Z.le_min_r.
  assert (Hu3 : usd' <= usd) by apply Z.le_min_l.
  split; [split; [exact Hm0|apply Z.le_min_r]|].
  split; [split; [apply fdiv_nonneg; assumption|exact Hdf]|].
  split. { assert (usd <= of_int u0) by apply Z.le_min_l. assert (of_int u0 <= of_int max_usd) by (apply of_int_le; apply Z.le_min_l). lia. }
  split. { pose proof fone_pos. assert (fees * fp <= mngo * pr) by nia.
    assert (fees * fp * fone <= mngo * pr * fone) by (apply Z.mul_le_mono_nonneg_r; lia).
    assert (mngo * (pr * fone) <= mngo * (mp * bonus)) by (apply Z.mul_le_mono_nonneg_l; lia). lia. }
  split; [lia|].
  exists f1. split; [reflexivity|]. split.
  { assert (usd <= of_int u0) by apply Z.le_min_l. assert (of_int u0 <= of_int (fees_accrued f1)) by (apply of_int_le; apply Z.le_min_r). lia. }
  intros Hs. unfold fees_accrued, sat_add. unfold reduce_fees in Er.
  assert (0 <= ceil_int usd') by (pose proof (ceil_int_bounds usd') as C; unfold of_int in C; pose proof fone_pos; nia).
  destruct (_ <? _); [destruct (_ <=? _); [|discriminate]|]; inversion Er; cbn [bf_current bf_previous]; lia.
Qed.
Theorem C34_buyback_no_panic (f f1 : bfees) (now interval max_usd mp fp bonus am df : Z) :
  expire_fees f now interval = Some f1 -> 0 <= bf_current f1 -> 0 <= bf_previous f1 ->
  0 < mp -> 0 < fp -> fone <= bonus ->
  exists r, buyback_fees f now interval max_usd mp fp bonus am df = Some r.
Proof.
  intros Ex H1 H2 Hmp Hfp Hbo. unfold buyback_fees. rewrite Ex.
  set (u0 := Z.min max_usd (fees_accrued f1)). set (usd := Z.min (of_int u0) (fmul df fp)).
  destruct (Z.leb_spec usd 0); [eexists; reflexivity|]. destruct (Z.leb_spec am 0); [eexists; reflexivity|].
  set (pr := fmul mp bonus). assert (Hpr0 : 0 < pr).
  { unfold pr. pose proof (fmul_mono_r mp fone bonus ltac:(lia) Hbo) as M. rewrite fmul_one_r in M. lia. }
  destruct (Z.eqb_spec pr 0); [lia|].
  set (mngo := Z.min (fdiv usd pr) am). set (usd' := Z.min usd (fmul mngo pr)).
  destruct (Z.eqb_spec fp 0); [lia|]. set (fees := fdiv usd' fp).
  assert (Hm0 : 0 <= mngo) by (unfold mngo; apply Z.min_glb; [apply fdiv_nonneg; lia|lia]).
  assert (Hu0 : 0 <= usd') by (unfold usd'; apply Z.min_glb; [lia|apply fmul_nonneg; lia]).
  pose proof (fdiv_pos_bounds usd' fp Hu0 Hfp) as F. fold fees in F.
  pose proof (fmul_bounds df fp) as F2.
  assert (Hu3 : usd' <= usd) by apply Z.le_min_l.
  assert (Hu4 : usd <= fmul df fp) by apply Z.le_min_r.
  assert (Hu5 : usd <= of_int u0) by apply Z.le_min_l.
  destruct (Z.ltb_spec df fees) as [Hlt|Hge].
  { exfalso. pose proof fone_pos. assert (usd' * fone <= df * fp) by nia. nia. }
  assert (Hc : ceil_int usd' <= fees_accrued f1).
  { pose proof (ceil_int_bounds usd') as C. assert (Hx : of_int (ceil_int usd' - 1) < of_int u0) by lia. apply (proj1 (of_int_lt _ _)) in Hx.
    assert (Hy : u0 <= fees_accrued f1) by apply Z.le_min_r. lia. }
  unfold reduce_fees. unfold fees_accrued, sat_add in Hc. destruct (Z.ltb_spec (bf_previous f1) (ceil_int usd')); [|eexists; reflexivity].
  destruct (Z.leb_spec (ceil_int usd' - bf_previous f1) (bf_current f1)); [eexists; reflexivity|lia].
Qed.
Example C34_buyback_ex : exists f' b, buyback_fees (mkBfees 500 300 2000) 1500 1000 10000
    (fone / 50) fone (fone * 6 / 5) (of_int 20000) (of_int 100000) = Some (f', Some b) /\
  0 < bb_mngo b <= of_int 20000 /\ 0 < bb_fees b /\ fees_accrued f' = 320.
Proof. eexists _, _. split; [vm_compute; reflexivity|]. split; [split; vm_compute; [reflexivity|discriminate]|]. (split; [vm_compute; reflexivity|]). vm_compute; reflexivity. Qed.
Print Assumptions C34_buyback.
Print Assumptions C34_buyback_no_panic.
