(** C20, C21: pnl settlement amounts and settle limits. *)
From Coq Require Import List ZArith Lia Bool.
From Verif Require Import OrderTree Keys Fixed BookSpec PerpTypes SettleLimit SettleSpec SettleFacts.
Import ListNotations.
Open Scope Z_scope.

Lemma fee_bounds c s pv v le mt fee : compute_settle_fee c s pv v le mt = Some fee -> 0 <= s ->
  0 <= fee <= s /\ (100 * pv <= v -> fee = 0) /\ (0 <= sc_fee_flat c -> fee <= 2 * sc_fee_flat c).
Proof.
  unfold compute_settle_fee. rewrite fmul_int_l, fmul_int_r. intros H Hs.
  destruct (Z.ltb_spec v (100 * pv)) as [Hv|Hv]; cbn [negb] in H.
  - destruct (mt <? le); [discriminate|].
    match type of H with (if 0 <=? Z.min ?f _ then _ else _) = _ => set (x := f) in H; assert (Hx : 0 <= sc_fee_flat c -> x <= 2 * sc_fee_flat c) end.
    { subst x. intros Hf. destruct (sc_fee_thr c <=? s); [lia|]. rewrite Z.mul_comm. apply Z.le_min_r. }
    destruct (Z.leb_spec 0 (Z.min x s)); [|discriminate]. injection H as <-. split; [lia|]. split; [lia|]. intros Hf. specialize (Hx Hf). lia.
  - injection H as <-. repeat apply conj; lia.
Qed.

Lemma limit_applied p l mk c x : 0 <= sc_m c -> 0 <= sc_e c ->
  (x < 0 -> Z.max x (of_int (fst (available_settle_limit p l mk c))) = apply_pnl_settle_limit p l mk c x) /\
  (0 <= x -> Z.min x (of_int (snd (available_settle_limit p l mk c))) = apply_pnl_settle_limit p l mk c x).
Proof.
  intros Hm He. unfold apply_pnl_settle_limit. destruct (Z.ltb_spec (sc_m c) 0); [lia|].
  destruct (available_settle_limit p l mk c) as [mn mx]. cbn [fst snd]. destruct (Z.ltb_spec x 0); split; intros; reflexivity || lia.
Qed.
Lemma pnl_settled p mk price : unsettled_pnl (settle_funding p mk) mk price = pnl_at mk p price.
Proof. unfold unsettled_pnl, pnl_at, settle_funding. cbn [p_quote p_base]. rewrite fmul_int_l. reflexivity. Qed.

(** ** C20: a settlement moves the same positive amount out of the profitable position A
    as into the unprofitable B, pays it in settle tokens from B to A less the settler's
    fee, and never exceeds A's profit, B's loss, B's health allowance, or the settle limit
    of either account in its window. *)
Theorem C20_settle_pnl : forall mk c pa la pb lb price sprice bmax liq_end maint now r,
  settle_pnl mk c pa la pb lb price sprice bmax liq_end maint now = Some r ->
  let s := st_amount r in
  0 < s /\ s <= pnl_at mk pa price /\ s <= - pnl_at mk pb price /\ s <= bmax /\
  p_quote (fst (st_a r)) = p_quote pa - unsettled_funding pa mk - s /\
  p_quote (fst (st_b r)) = p_quote pb - unsettled_funding pb mk + s /\
  p_base (fst (st_a r)) = p_base pa /\ p_base (fst (st_b r)) = p_base pb /\
  0 <= st_fee r <= s /\
  st_token_a r = s - st_fee r /\ st_token_b r = - s /\ st_token_settler r = st_fee r /\
  st_token_a r + st_token_b r + st_token_settler r = 0 /\
  (0 <= sc_m c -> 0 <= sc_e c -> exists la' lb',
     update_settle_limit la c now = Some la' /\ update_settle_limit lb c now = Some lb' /\
     s <= of_int (snd (available_settle_limit (settle_funding pa mk) la' mk c)) /\
     - s >= of_int (fst (available_settle_limit (settle_funding pb mk) lb' mk c))).
Proof.
  intros mk c pa la pb lb price sprice bmax liq_end maint now r H. unfold settle_pnl in H. rewrite !pnl_settled in H.
  destruct (negb _ || negb _) eqn:E1 in H; [discriminate|]. apply orb_false_iff in E1 as [E1 E2]. apply negb_false_iff, Z.ltb_lt in E1, E2.
  destruct (update_settle_limit la c now) as [la'|] eqn:Ela; [|discriminate]. destruct (update_settle_limit lb c now) as [lb'|] eqn:Elb; [|discriminate].
  set (PA := settle_funding pa mk) in *. set (PB := settle_funding pb mk) in *.
  set (xa := apply_pnl_settle_limit PA la' mk c (pnl_at mk pa price)) in *. set (xb := apply_pnl_settle_limit PB lb' mk c (pnl_at mk pb price)) in *.
  destruct (negb _ || negb _ || negb _) eqn:E3 in H; [discriminate|]. apply orb_false_iff in E3 as [E3 E5]. apply orb_false_iff in E3 as [E3 E4].
  apply negb_false_iff, Z.ltb_lt in E3, E4, E5.
  set (s := Z.max _ 0) in H. destruct (compute_settle_fee _ _ _ _ _ _) as [fee|] eqn:Ef; [|discriminate]. injection H as <-.
  cbn [st_amount st_fee st_a st_b st_token_a st_token_b st_token_settler]. cbv zeta.
  assert (Hs : 0 < s /\ s <= xa /\ s <= - xb /\ s <= bmax) by (unfold s; lia). destruct Hs as (Hs & Hsa & Hsb & Hsm).
  assert (Hxa : xa <= pnl_at mk pa price).
  { unfold xa, apply_pnl_settle_limit. destruct (sc_m c <? 0); [lia|]. destruct (available_settle_limit _ _ _ _) as [mn mx].
    destruct (Z.ltb_spec (pnl_at mk pa price) 0); [lia|]. apply Z.le_min_l. }
  assert (Hxb : pnl_at mk pb price <= xb).
  { unfold xb, apply_pnl_settle_limit. destruct (sc_m c <? 0); [lia|]. destruct (available_settle_limit _ _ _ _) as [mn mx].
    destruct (Z.ltb_spec (pnl_at mk pb price) 0); [apply Z.le_max_l|lia]. }
  destruct (fee_bounds _ _ _ _ _ _ _ Ef ltac:(lia)) as (Hfee & _).
  destruct (record_settle_base PA la' mk c s) as (A1 & A2 & _). destruct (record_settle_base PB lb' mk c (- s)) as (B1 & B2 & _).
  split; [exact Hs|]. split; [lia|]. split; [lia|]. split; [exact Hsm|].
  split; [rewrite A2; reflexivity|]. split; [rewrite B2; unfold PB; cbn [settle_funding p_quote]; lia|].
  split; [rewrite A1; reflexivity|]. split; [rewrite B1; reflexivity|]. split; [exact Hfee|].
  split; [reflexivity|]. split; [reflexivity|]. split; [reflexivity|]. split; [lia|].
  intros Hm He. exists la', lb'. split; [reflexivity|]. split; [reflexivity|].
  destruct (limit_applied PA la' mk c (pnl_at mk pa price) Hm He) as [_ L1]. specialize (L1 ltac:(lia)).
  destruct (limit_applied PB lb' mk c (pnl_at mk pb price) Hm He) as [L2 _]. specialize (L2 ltac:(lia)).
  fold xa in L1. fold xb in L2. split; lia.
Qed.
Print Assumptions C20_settle_pnl.

(** the settler's fee is zero when A's profit is at most 1% of its position value, and
    never more than twice the flat fee *)
Theorem C20_settle_fee : forall mk c pa la pb lb price sprice bmax liq_end maint now r,
  settle_pnl mk c pa la pb lb price sprice bmax liq_end maint now = Some r ->
  (100 * fmul (pnl_at mk pa price) sprice <= fmul (of_int (Z.abs (p_base pa * mk_bls mk))) price -> st_fee r = 0) /\
  (0 <= sc_fee_flat c -> st_fee r <= 2 * sc_fee_flat c).
Proof.
  intros mk c pa la pb lb price sprice bmax liq_end maint now r H. pose proof (C20_settle_pnl _ _ _ _ _ _ _ _ _ _ _ _ _ H) as (Hs & _).
  unfold settle_pnl in H. rewrite !pnl_settled in H.
  destruct (negb _ || negb _) in H; [discriminate|].
  destruct (update_settle_limit la c now) as [la'|]; [|discriminate]. destruct (update_settle_limit lb c now) as [lb'|]; [|discriminate].
  destruct (negb _ || negb _ || negb _) in H; [discriminate|].
  destruct (compute_settle_fee _ _ _ _ _ _) as [fee|] eqn:Ef; [|discriminate]. injection H as <-. cbn [st_fee st_amount] in *.
  destruct (fee_bounds _ _ _ _ _ _ _ Ef ltac:(lia)) as (_ & F1 & F2). split; [|exact F2]. intros Hv. apply F1.
  rewrite (proj1 (record_settle_base _ _ _ _ _)). cbn [settle_funding p_base].
  replace (Z.abs (of_int (p_base pa * mk_bls mk))) with (of_int (Z.abs (p_base pa * mk_bls mk))); [exact Hv|].
  unfold of_int. pose proof fone_pos. rewrite (Z.abs_mul _ fone). replace (Z.abs fone) with fone by lia. reflexivity.
Qed.
Print Assumptions C20_settle_fee.

(** settling fees: what the losing position is relieved of leaves the accrued fees, is paid
    in settle tokens, and is limited by the loss, the settle limit, the accrued fees and
    the requested amount *)
Theorem C20_settle_fees : forall mk c p l price max_amount p' l' mk' s,
  settle_fees mk c p l price max_amount = Some (p', l', mk', s) ->
  0 <= max_amount ->
  0 <= s /\ s <= of_int max_amount /\
  p_quote p' = p_quote p - unsettled_funding p mk + s /\ mk_fees_accrued mk' = mk_fees_accrued mk - s /\
  mk_fees_accrued mk' + p_quote p' = mk_fees_accrued mk + p_quote p - unsettled_funding p mk /\
  p_base p' = p_base p /\
  (0 < s -> 0 <= mk_fees_accrued mk' /\ s <= - pnl_at mk p price /\
    (0 <= sc_m c -> 0 <= sc_e c -> - s >= of_int (fst (available_settle_limit (settle_funding p mk) l mk c)))).
Proof.
  intros mk c p l price max_amount p' l' mk' s H Hm0. unfold settle_fees in H. rewrite pnl_settled in H.
  destruct (max_amount =? 0); [discriminate|]. set (P := settle_funding p mk) in *. set (x := apply_pnl_settle_limit P l mk c (pnl_at mk p price)) in *.
  assert (Hmax : 0 <= of_int max_amount) by (unfold of_int; pose proof fone_pos; nia).
  destruct (negb _ || negb _) eqn:E in H.
  - injection H as <- <- <- <-. change (p_quote P) with (p_quote p - unsettled_funding p mk). change (p_base P) with (p_base p).
    split; [lia|]. split; [exact Hmax|]. split; [lia|]. split; [lia|]. split; [lia|]. split; [reflexivity|lia].
  - apply orb_false_iff in E as [E1 E2]. apply negb_false_iff, Z.ltb_lt in E1, E2.
    set (S := Z.min _ _) in H. destruct (record_settle P l mk c (- S)) as [q ql] eqn:Er. injection H as <- <- <- <-.
    pose proof (record_settle_base P l mk c (- S)) as (B1 & B2 & _). rewrite Er in B1, B2. cbn [fst] in B1, B2.
    assert (HS : 0 <= S <= - x /\ S <= mk_fees_accrued mk /\ S <= of_int max_amount) by (unfold S; lia).
    assert (Hx : pnl_at mk p price <= x).
    { unfold x, apply_pnl_settle_limit. destruct (sc_m c <? 0); [lia|]. destruct (available_settle_limit _ _ _ _) as [mn mx] eqn:Ea.
      destruct (Z.ltb_spec (pnl_at mk p price) 0); [apply Z.le_max_l|].
      exfalso. unfold x, apply_pnl_settle_limit in E1. destruct (Z.ltb_spec (sc_m c) 0); [lia|]. rewrite Ea in E1.
      destruct (Z.ltb_spec (pnl_at mk p price) 0); [lia|]. revert E1. unfold available_settle_limit in Ea.
      destruct (Z.ltb_spec (sc_m c) 0); [lia|]. destruct (settle_limit _ _ _ _) as [a b]. injection Ea as <- <-.
      unfold of_int. pose proof fone_pos. set (z := Z.max (sat64 _) 0). assert (0 <= z) by (unfold z; lia). nia. }
    change (mk_fees_accrued (with_fees mk (mk_fees_accrued mk - S))) with (mk_fees_accrued mk - S).
    rewrite B1, B2. change (p_quote P) with (p_quote p - unsettled_funding p mk). change (p_base P) with (p_base p).
    split; [lia|]. split; [lia|]. split; [lia|]. split; [lia|]. split; [lia|]. split; [reflexivity|]. intros Hp.
    split; [lia|]. split; [lia|]. intros Hm He. destruct (limit_applied P l mk c (pnl_at mk p price) Hm He) as [L1 _].
    assert (pnl_at mk p price < 0) by lia. specialize (L1 ltac:(lia)). fold x in L1. lia.
Qed.
Print Assumptions C20_settle_fees.

(** a market (lots of size 10) at stable and oracle price 2, A long 100 lots bought at 1.5,
    B short; limit factor 0.25, hour windows *)
Definition ex_mk : market := mkMarket 1 0 10 1 0 0 0 (of_int 7) 200 0 0 fone fone.
Definition ex_c : scfg := mkSC 1 2 (fone / 4) 3600 (of_int 2) (of_int 3) (of_int 100) (fone / 100).
Definition ex_pa : position := mkPos 100 (of_int (-1500)) 0 0 0 0 0 0 0.
Definition ex_pb : position := mkPos (-100) (of_int 1500) 0 0 0 0 0 0 0.
Example C20_example : exists r,
  settle_pnl ex_mk ex_c ex_pa lim0 ex_pb lim0 (of_int 2) fone (of_int 400) (of_int 50) (of_int 60) 7300 = Some r /\
  st_amount r = of_int 400 /\ st_fee r = of_int 3 /\ p_quote (fst (st_a r)) = of_int (-1900) /\ p_quote (fst (st_b r)) = of_int 1900 /\
  lm_used (snd (st_a r)) = 400 /\ lm_window (snd (st_a r)) = 2.
Proof. eexists. split; [vm_compute; reflexivity|]. vm_compute. repeat split. Qed.
Example C20_fees_example : exists p' l' mk',
  settle_fees ex_mk ex_c ex_pb lim0 (of_int 2) 1000 = Some (p', l', mk', of_int 7) /\ mk_fees_accrued mk' = 0.
Proof. do 3 eexists. split; vm_compute; reflexivity. Qed.

(** ** C21: settle limit windows *)
Theorem C21_limits_signed : forall p l mk c, 0 <= sc_m c -> 0 <= sc_e c ->
  fst (settle_limit p l mk c) <= 0 <= snd (settle_limit p l mk c) /\
  fst (available_settle_limit p l mk c) <= 0 <= snd (available_settle_limit p l mk c).
Proof.
  intros p l mk c Hm He. destruct (settle_limit p l mk c) as [mn mx] eqn:E. destruct (settle_limit_bounds _ _ _ _ _ _ Hm He E) as (H1 & H2 & _).
  destruct (available_bounds p l mk c Hm He) as (A1 & A2 & _). cbn [fst snd]. lia.
Qed.
Print Assumptions C21_limits_signed.

(** the window after [update_settle_limit] contains the current time; the used amount is
    kept inside a window and restarts at zero in a new one *)
Theorem C21_window : forall l c now l', update_settle_limit l c now = Some l' -> 0 < sc_window c -> 0 <= now ->
  lm_window l' * sc_window c <= now < lm_window l' * sc_window c + sc_window c /\
  lm_rec l' = lm_rec l /\
  lm_used l' = (if lm_window l' =? lm_window l then lm_used l else 0).
Proof.
  intros l c now l' H Hw Hn. unfold update_settle_limit in H.
  destruct ((_ <=? now) || (now <? _)) eqn:E.
  - destruct (_ || _) in H; [discriminate|]. injection H as <-. cbn [lm_window lm_rec lm_used].
    pose proof (Z.div_mod now (sc_window c) ltac:(lia)). pose proof (Z.mod_pos_bound now (sc_window c) Hw).
    split; [nia|]. split; [reflexivity|]. destruct (Z.eqb_spec (now / sc_window c) (lm_window l)) as [Ew|]; [|reflexivity].
    exfalso. apply orb_true_iff in E as [E|E]; [apply Z.leb_le in E|apply Z.ltb_lt in E]; rewrite <- Ew in E; nia.
  - apply orb_false_iff in E as [E1 E2]. apply Z.leb_gt in E1. apply Z.ltb_ge in E2. injection H as <-.
    rewrite Z.eqb_refl. repeat apply conj; reflexivity || lia.
Qed.
Print Assumptions C21_window.

(** any sequence of settlements inside one window, each inside the limit available at that
    time, adds up to at most the allowance: in each direction, up to one native unit of
    rounding per settlement *)
Theorem C21_sum_in_window : forall mk c p l L r, 0 <= sc_m c -> 0 <= sc_e c ->
  settle_all mk c p l L = Some r ->
  sumZ L <= Z.max 0 (allowance_up mk c p l + of_int (Z.of_nat (length L))) /\
  - sumZ L <= Z.max 0 (allowance_down mk c p l + of_int (Z.of_nat (length L))).
Proof. intros. eapply settle_all_bound; eassumption. Qed.
Print Assumptions C21_sum_in_window.

(** without the rounding term the bound is false: only whole units are counted as used *)
Definition ex_small : position := mkPos 1 (of_int (-10)) 0 0 0 0 0 0 0.
Theorem C21_exact_sum_refuted : exists mk c p l L r, 0 <= sc_m c /\ 0 <= sc_e c /\
  settle_all mk c p l L = Some r /\ Z.max 0 (allowance_up mk c p l) < sumZ L.
Proof.
  exists ex_mk, ex_c, ex_small, lim0, [of_int 4 + fone / 2; of_int 1]. eexists.
  split; [vm_compute; discriminate|]. split; [vm_compute; discriminate|]. split; [vm_compute; reflexivity|]. vm_compute. reflexivity.
Qed.
Print Assumptions C21_exact_sum_refuted.

(** the recurring allowance never exceeds the position's pnl at the stable price, after
    every settlement and every trade *)
Theorem C21_recurring_bounded : forall mk c p l,
  (forall s p' l', record_settle p l mk c s = (p', l') ->
     0 <= lm_rec l' <= ceil_int (Z.abs (unsettled_pnl p' mk (sc_stable c)))) /\
  (forall base quote p' l' mk', record_trade_full p l mk c base quote = (p', l', mk') ->
     0 <= lm_rec l' <= ceil_int (Z.abs (unsettled_pnl p' mk' (sc_stable c)))).
Proof.
  intros mk c p l. split.
  - intros s p' l' H. eapply record_settle_recurring; exact H.
  - intros base quote p' l' mk' H. unfold record_trade_full in H. destruct (record_trade p mk base quote) as [q mq].
    destruct (constrain_recurring q _ mq c) as [l1 d] eqn:E. apply constrain_spec in E as (_ & _ & E1 & _ & E2).
    cbn [fst] in H. injection H as <- <- <-. lia.
Qed.
Print Assumptions C21_recurring_bounded.

(** base value 2000, factor 0.25: 500 per window in each direction; two settlements fit,
    a third is cut off, and the next window starts again *)
Example C21_example :
  settle_limit ex_pa lim0 ex_mk ex_c = (-500, 500) /\
  (exists p l, settle_all ex_mk ex_c ex_pa lim0 [of_int 300; of_int 200] = Some (p, l) /\ lm_used l = 500 /\
     available_settle_limit p l ex_mk ex_c = (-1000, 0) /\
     exists l2, update_settle_limit l ex_c 3600 = Some l2 /\ available_settle_limit p l2 ex_mk ex_c = (-500, 500)) /\
  settle_all ex_mk ex_c ex_pa lim0 [of_int 300; of_int 201] = None.
Proof.
  split; [vm_compute; reflexivity|]. split; [|vm_compute; reflexivity]. do 2 eexists.
  split; [vm_compute; reflexivity|]. split; [vm_compute; reflexivity|]. split; [vm_compute; reflexivity|].
  eexists. split; [vm_compute; reflexivity|]. vm_compute; reflexivity.
Qed.
(** reducing a position turns its share of the limit into recurring allowance *)
Example C21_trade_example : forall p' l' mk',
  record_trade_full ex_pa lim0 ex_mk ex_c (-60) (of_int 1200) = (p', l', mk') -> lm_rec l' = 300 /\ unrealized_limit p' ex_mk ex_c = 200.
Proof. intros p' l' mk' H. vm_compute in H. injection H as <- <- <-. vm_compute. split; reflexivity. Qed.
