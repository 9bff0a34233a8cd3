(** What a trigger moves. *)
From Coq Require Import List ZArith Lia Bool Permutation.
From Verif Require Import Health HealthSpec LiqState OrderTree Keys PerpTypes Interest Bank BankFacts BankSystem BankSpec Fixed Tcs TcsSpec TcsFacts.
Import ListNotations.
Open Scope Z_scope.

Definition tok : Z := fone * fone.
Definition maxix (b : bank) : Z := Z.max (b_di b) (b_bi b).
Definition same_indexes (b b' : bank) : Prop :=
  b_di b' = b_di b /\ b_bi b' = b_bi b /\ b_lof b' = b_lof b /\ b_reduce b' = b_reduce b.
Lemma pv_worth b ix : pv b ix = worth (b_di b) (b_bi b) ix.
Proof. unfold pv, worth. destruct (Z.ltb_spec 0 ix), (Z.ltb_spec ix 0); try lia; try reflexivity. assert (ix = 0) by lia. subst. lia. Qed.
Lemma pv_same b b' ix : same_indexes b b' -> pv b' ix = pv b ix.
Proof. intros (H1 & H2 & _). unfold pv. rewrite H1, H2. reflexivity. Qed.
Lemma moved_same b b' p p' : moved b b' p p' -> same_indexes b b'.
Proof. intros []. split; [|split; [|split]]; assumption. Qed.
Lemma same_trans a b c : same_indexes a b -> same_indexes b c -> same_indexes a c.
Proof. unfold same_indexes. intuition congruence. Qed.
Lemma same_refl b : same_indexes b b. Proof. unfold same_indexes. auto. Qed.
Lemma same_ok b b' : same_indexes b b' -> index_ok b -> index_ok b'.
Proof. intros (H1 & H2 & _) [A B]. split; [rewrite H1|rewrite H2]; assumption. Qed.
Lemma same_native b b' p : same_indexes b b' -> native b' p = native b p.
Proof. intros (H1 & H2 & _). unfold native. rewrite H1, H2. reflexivity. Qed.

Lemma withdraw_step b p x now b' p' r : index_ok b -> 0 <= b_lof b ->
  withdraw_with_fee b p x now = Some (b', p', r) ->
  same_indexes b b' /\ t_use p' = t_use p /\ 0 <= w_fee r <= fmul (b_lof b) x /\ b_fees b' = b_fees b + w_fee r /\
  - (x + w_fee r) * fone - fone - (if w_active r then 0 else tok) < pv b (t_ix p') - pv b (t_ix p) < - (x + w_fee r) * fone + maxix b /\
  (w_active r = false -> t_ix p' = 0 /\ t_use p <= 0) /\
  t_ix p' <= t_ix p /\ (x <= native b p -> 0 <= t_ix p' /\ w_fee r = 0) /\ (native b p < x -> t_ix p' <= 0).
Proof.
  intros Hok Hl H. unfold withdraw_with_fee in H. apply withdraw_spec in H; [|assumption|assumption].
  destruct H as (Hx & M & L & F0 & Ef & Efee & _ & Ha & Hd & B1 & B2 & N1 & N2 & _).
  split; [eapply moved_same; exact M|]. split; [apply M|].
  assert (Hfee: 0 <= w_fee r <= fmul (b_lof b) x).
  { split; [exact F0|]. rewrite Efee. destruct (Z.ltb_spec 0 (to_borrow b p x)); cbn [andb].
    - apply fmul_mono_r; [exact Hl|]. unfold to_borrow. lia.
    - apply fmul_nonneg; assumption. }
  split; [exact Hfee|]. split; [exact Ef|]. unfold maxix.
  assert (Hff: x <= native b p -> w_fee r = 0).
  { intros Hxn. rewrite Efee. destruct (Z.ltb_spec 0 (to_borrow b p x)) as [Ht|]; [unfold to_borrow in Ht; lia|reflexivity]. }
  destruct (w_active r) eqn:Ea.
  - rewrite (Ha eq_refl), Z.sub_diag, Z.mul_0_l, Z.add_0_r in B1, B2. split; [lia|]. split; [discriminate|]. split; [exact L|]. split; [auto|exact N2].
  - destruct (Hd eq_refl) as (D1 & D2 & D3 & D4 & D5 & D6). rewrite D4 in B1, B2.
    assert (0 <= (native b p - x) * fone) by (pose proof fone_pos; nia).
    assert ((native b p - x) * fone <= tok) by (unfold tok; pose proof fone_pos; nia).
    split; [lia|]. split; [intros _; split; [exact D3|]|split; [exact L|split; [auto|exact N2]]].
    unfold in_use in D1. apply negb_true_iff in D1. apply Z.ltb_ge in D1.
    exact D1.
Qed.

Lemma deposit_step b p x now b' p' act : index_ok b -> deposit b p x now = Some (b', p', act) ->
  same_indexes b b' /\ t_use p' = t_use p /\ b_fees b' = b_fees b /\
  x * fone - fone - (if act then 0 else tok) < pv b (t_ix p') - pv b (t_ix p) < x * fone + maxix b + fone /\
  (act = false -> t_ix p' = 0 /\ t_use p <= 0) /\ t_ix p <= t_ix p'.
Proof.
  intros Hok H. unfold deposit in H. apply deposit_spec in H; [|assumption].
  destruct H as (Hx & M & Ef & L & Ha & Hd & B1 & B2 & _ & _).
  split; [eapply moved_same; exact M|]. split; [apply M|]. split; [exact Ef|]. unfold maxix. pose proof fone_pos as F0.
  destruct act.
  - rewrite (Ha eq_refl), Z.sub_diag, Z.mul_0_l, Z.add_0_r in B1, B2. split; [lia|]. split; [discriminate|exact L].
  - destruct (Hd eq_refl) as (D1 & D2 & D3 & D4 & D5 & D6).
    assert ((native b p + x) * fone <= tok) by (unfold tok; nia).
    rewrite D4 in B1, B2. replace (b_dust b + (native b p + x) - b_dust b) with (native b p + x) in B1, B2 by lia.
    split; [split; [lia|]|split; [|exact L]].
    + rewrite D3. pose proof (native_bounds b p) as [N1 N2]. change (pv b 0) with 0. lia.
    + intros _. split; [exact D3|]. apply negb_true_iff in D1. unfold in_use in D1. apply Z.ltb_ge in D1. exact D1.
Qed.

(** both sides of a transfer *)
Lemma transfer_step b src x tgt y now oracle b' src' tgt' r act : index_ok b -> 0 <= b_lof b -> 0 <= x -> 0 <= y ->
  checked_transfer b src x tgt y now oracle = Some (b', src', tgt', r, act) ->
  same_indexes b b' /\ t_use src' = t_use src /\ t_use tgt' = t_use tgt /\
  0 <= w_fee r <= fmul (b_lof b) x /\ b_fees b' = b_fees b + w_fee r /\
  - (x + w_fee r) * fone - fone - (if w_active r then 0 else tok) < pv b (t_ix src') - pv b (t_ix src) < - (x + w_fee r) * fone + maxix b /\
  (w_active r = false -> t_ix src' = 0 /\ t_use src <= 0) /\
  y * fone - fone - (if act then 0 else tok) < pv b (t_ix tgt') - pv b (t_ix tgt) < y * fone + maxix b + fone /\
  (act = false -> t_ix tgt' = 0 /\ t_use tgt <= 0) /\
  t_ix src' <= t_ix src /\ t_ix tgt <= t_ix tgt' /\
  (x <= native b src -> 0 <= t_ix src' /\ w_fee r = 0) /\ (x = 0 -> src' = src) /\ (y = 0 -> tgt' = tgt) /\
  (borrows_reduce_only b = true -> 0 <= t_ix src' \/ src' = src) /\
  (deposits_reduce_only b = true -> t_ix tgt' <= 0 \/ tgt' = tgt).
Proof.
  intros Hok Hl Hx Hy H. pose proof fone_pos as F0. unfold checked_transfer in H.
  destruct (if negb (x =? 0) then _ else _) as [[[b1 src1] r1]|] eqn:E1; [|discriminate].
  destruct (if negb (y =? 0) then _ else _) as [[[b2 tgt1] act1]|] eqn:E2; [|discriminate].
  inv_opt H. apply some_inj in H. injection H as <- <- <- <- <-.
  assert (A: same_indexes b b1 /\ t_use src1 = t_use src /\ 0 <= w_fee r1 <= fmul (b_lof b) x /\ b_fees b1 = b_fees b + w_fee r1 /\
    - (x + w_fee r1) * fone - fone - (if w_active r1 then 0 else tok) < pv b (t_ix src1) - pv b (t_ix src) < - (x + w_fee r1) * fone + maxix b /\
    (w_active r1 = false -> t_ix src1 = 0 /\ t_use src <= 0) /\ t_ix src1 <= t_ix src /\
    (x <= native b src -> 0 <= t_ix src1 /\ w_fee r1 = 0) /\ (x = 0 -> src1 = src) /\
    (borrows_reduce_only b = true -> 0 <= t_ix src1 \/ src1 = src)).
  { destruct (Z.eqb_spec x 0) as [->|Hne]; cbn [negb] in E1.
    - apply some_inj in E1. injection E1 as <- <- <-. cbn [w_fee w_active]. split; [apply same_refl|]. split; [reflexivity|].
      split; [rewrite fmul_0_r; lia|]. split; [lia|]. split; [destruct Hok; unfold maxix; lia|]. split; [discriminate|].
      split; [lia|]. split; [|auto]. intros Hn. split; [|reflexivity].
      destruct (Z_lt_le_dec (t_ix src) 0) as [h|h]; [apply (native_neg b src Hok) in h; lia|exact h].
    - inv_opt E1. apply some_inj in E1. injection E1 as <- <- <-. subst.
      match goal with A : withdraw_with_fee _ _ _ _ = Some _ |- _ => apply withdraw_step in A; [|assumption|assumption];
        destruct A as (W1 & W2 & W3 & W4 & W5 & W6 & W7 & W8 & W9) end.
      split; [exact W1|]. split; [exact W2|]. split; [exact W3|]. split; [exact W4|]. split; [exact W5|]. split; [exact W6|].
      split; [exact W7|]. split; [exact W8|]. split; [intros ->; contradiction|]. intros Hr.
      match goal with A : (_ || negb (borrows_reduce_only ?z)) = true |- _ => assert (Er: borrows_reduce_only z = borrows_reduce_only b) end.
      { unfold borrows_reduce_only. destruct W1 as (_ & _ & _ & ->). reflexivity. }
      rewrite Er, Hr in *. cbn [negb] in *. rewrite orb_false_r in *. left. apply Z.leb_le. assumption. }
  destruct A as (A1 & A2 & A3 & A4 & A5 & A6 & A7 & A8 & A9 & A10).
  assert (B: same_indexes b1 b2 /\ t_use tgt1 = t_use tgt /\ b_fees b2 = b_fees b1 /\
    y * fone - fone - (if act1 then 0 else tok) < pv b1 (t_ix tgt1) - pv b1 (t_ix tgt) < y * fone + maxix b1 + fone /\
    (act1 = false -> t_ix tgt1 = 0 /\ t_use tgt <= 0) /\ t_ix tgt <= t_ix tgt1 /\ (y = 0 -> tgt1 = tgt) /\
    (deposits_reduce_only b1 = true -> t_ix tgt1 <= 0 \/ tgt1 = tgt)).
  { assert (Hok1: index_ok b1) by (eapply same_ok; eassumption).
    destruct (Z.eqb_spec y 0) as [->|Hne]; cbn [negb] in E2.
    - apply some_inj in E2. injection E2 as <- <- <-. split; [apply same_refl|]. split; [reflexivity|]. split; [reflexivity|].
      split; [destruct Hok1; unfold maxix; lia|]. split; [discriminate|]. split; [lia|]. split; auto.
    - inv_opt E2. apply some_inj in E2. injection E2 as <- <- <-. subst.
      match goal with A : deposit _ _ _ _ = Some _ |- _ => apply deposit_step in A; [|assumption];
        destruct A as (W1 & W2 & W3 & W4 & W5 & W6) end.
      split; [exact W1|]. split; [exact W2|]. split; [exact W3|]. split; [exact W4|]. split; [exact W5|]. split; [exact W6|].
      split; [intros ->; contradiction|]. intros Hr.
      match goal with A : (_ || negb (deposits_reduce_only ?z)) = true |- _ => assert (Er: deposits_reduce_only z = deposits_reduce_only b1) end.
      { unfold deposits_reduce_only. destruct W1 as (_ & _ & _ & ->). reflexivity. }
      rewrite Er, Hr in *. cbn [negb] in *. rewrite orb_false_r in *. left. apply Z.leb_le. assumption. }
  destruct B as (B1 & B2 & B3 & B4 & B5 & B6 & B7 & B8).
  rewrite !(pv_same b b1) in B4 by exact A1.
  assert (Em: maxix b1 = maxix b) by (unfold maxix; destruct A1 as (-> & -> & _); reflexivity). rewrite Em in B4.
  split; [eapply same_trans; eassumption|]. split; [exact A2|]. split; [exact B2|]. split; [exact A3|]. split; [lia|].
  split; [exact A5|]. split; [exact A6|]. split; [exact B4|]. split; [exact B5|]. split; [exact A7|]. split; [exact B6|].
  split; [exact A8|]. split; [exact A9|]. split; [exact B7|]. split; [exact A10|].
  intros Hr. apply B8. unfold deposits_reduce_only in *. destruct A1 as (_ & _ & _ & ->). exact Hr.
Qed.

(** ** positions of an account *)
From Verif Require TxMoney.
Definition hold (b : bank) (a : sacct) (t : Z) : Z := match pos_get (s_pos a) t with Some p => pv b (t_ix p) | None => 0 end.
Lemma hold_same b b' a t : same_indexes b b' -> hold b' a t = hold b a t.
Proof. intros H. unfold hold. destruct (pos_get (s_pos a) t); [apply pv_same; exact H|reflexivity]. Qed.
Lemma hold_balance w k t a b : sw_accts w k = Some a -> sw_banks w t = Some b -> balance w k t = hold b a t.
Proof. intros Ha Hb. unfold balance, hold. rewrite Ha, Hb. destruct (pos_get (s_pos a) t); [symmetry; apply pv_worth|reflexivity]. Qed.

Lemma sensure_hold a t a' b u : sensure a t = Some a' -> one_each a ->
  one_each a' /\ hold b a' u = hold b a u.
Proof.
  unfold sensure, one_each, hold. intros H N. destruct (pos_get (s_pos a) t) eqn:E; [injection H as <-; auto|].
  destruct (Nat.ltb _ _); [|discriminate]. injection H as <-. cbn [set_pos s_pos]. split.
  - rewrite map_app. cbn [map fst]. apply Permutation.Permutation_NoDup with (t :: map fst (s_pos a)); [apply Permutation.Permutation_cons_append|].
    constructor; [|exact N]. intros Hin. clear N. induction (s_pos a) as [|[v p] l IH]; [contradiction|]. cbn [pos_get] in E. cbn in Hin.
    destruct (Z.eqb_spec v t); [discriminate|]. destruct Hin; [contradiction|auto].
  - rewrite pos_get_app. destruct (pos_get (s_pos a) u) eqn:Eu; [reflexivity|]. cbn [pos_get].
    destruct (Z.eqb_spec t u); [|reflexivity]. unfold pv. reflexivity.
Qed.

Lemma drop_spec a t act a' : drop_if_inactive a t act = Some a' -> one_each a ->
  one_each a' /\ forall u, pos_get (s_pos a') u = if negb act && (u =? t) then None else pos_get (s_pos a) u.
Proof.
  unfold drop_if_inactive, one_each. intros H N. destruct act; [injection H as <-; cbn [negb andb]; auto|].
  unfold sdeactivate in H. inv_opt H. injection H as <-. cbn [set_pos s_pos negb andb].
  split; [apply TxMoney.pos_del_keys; exact N|]. intros v. rewrite TxMoney.pos_get_del by exact N. reflexivity.
Qed.

Lemma dust_spec b p now b' p' act : index_ok b -> dust_if_possible b p now = Some (b', p', act) ->
  same_indexes b b' /\ b_fees b' = b_fees b /\ - tok < pv b (t_ix p') - pv b (t_ix p) <= 0 /\
  (t_ix p <= 0 -> pv b (t_ix p') = pv b (t_ix p)) /\ (act = false -> t_ix p' = 0) /\ (act = true -> p' = p).
Proof.
  intros Hok. unfold dust_if_possible. pose proof fone_pos as F0.
  assert (T0: 0 < tok) by (unfold tok; lia).
  assert (Same: Some (b, p, true) = Some (b', p', act) -> same_indexes b b' /\ b_fees b' = b_fees b /\ - tok < pv b (t_ix p') - pv b (t_ix p) <= 0 /\
     (t_ix p <= 0 -> pv b (t_ix p') = pv b (t_ix p)) /\ (act = false -> t_ix p' = 0) /\ (act = true -> p' = p)).
  { intros H. injection H as <- <- <-. split; [apply same_refl|]. split; [reflexivity|]. split; [lia|]. split; [reflexivity|]. split; [discriminate|reflexivity]. }
  destruct (in_use p) eqn:Eu; [exact Same|].
  destruct (Z.leb_spec 0 (native b p)) as [Hn|]; cbn [andb]; [|exact Same].
  destruct (Z.ltb_spec (native b p) fone) as [Hlt|]; [|exact Same].
  unfold withdraw_without_fee, withdraw_internal. cbn [guard]. rewrite Eu. cbn [Z.leb Z.compare guard negb]. intros H.
  assert (E1: (native b p <? 0) = false) by (apply Z.ltb_ge; lia). rewrite E1 in H. cbn [negb] in H.
  rewrite Z.sub_0_r in H. rewrite E1 in H. cbn [negb] in H.
  assert (E2: (native b p <? fone) = true) by (apply Z.ltb_lt; lia). rewrite E2 in H. cbn [andb w_active] in H.
  injection H as <- <- <-. cbn [t_ix].
  split; [split; [|split; [|split]]; reflexivity|]. split; [reflexivity|].
  pose proof (native_bounds b p) as [N1 N2]. change (pv b 0) with 0.
  assert (0 <= t_ix p) by (destruct (Z_lt_le_dec (t_ix p) 0) as [h|h]; [apply (native_neg b p Hok) in h; lia|exact h]).
  split; [split; [unfold tok; nia|nia]|]. split; [|split; [auto|discriminate]]. intros Hz. assert (t_ix p = 0) by lia. rewrite H0. reflexivity.
Qed.

Lemma srelease_spec a t b now a' b' : index_ok b -> one_each a -> srelease a t b now = Some (a', b') ->
  one_each a' /\ same_indexes b b' /\ b_fees b' = b_fees b /\ (forall u, u <> t -> pos_get (s_pos a') u = pos_get (s_pos a) u) /\
  - tok < hold b a' t - hold b a t <= 0 /\ (hold b a t <= 0 -> hold b a' t = hold b a t) /\
  (pos_get (s_pos a') t <> None -> hold b a' t = hold b a t).
Proof.
  intros Hok N. unfold srelease. assert (T0: 0 < tok) by (unfold tok; pose proof fone_pos; lia).
  destruct (pos_get (s_pos a) t) as [p|] eqn:E.
  2: { intros H. injection H as <- <-. split; [exact N|]. split; [apply same_refl|]. split; [reflexivity|]. split; [auto|]. split; [lia|]. split; auto. }
  intros H. inv_opt H. subst.
  match goal with A : dust_if_possible _ _ _ = Some (?b1, ?p1, ?act) |- _ => apply dust_spec in A; [|exact Hok]; destruct A as (D1 & D2 & D3 & D4 & D5 & D6) end.
  cbn [t_ix] in D3, D4. injection H as <- <-.
  match goal with A : (if _ then _ else _) = Some _ |- _ => apply (drop_spec (set_pos a (pos_set (s_pos a) t t0)) t b0) in A; [|unfold one_each in *; cbn [set_pos s_pos]; rewrite TxMoney.pos_set_keys; exact N];
     destruct A as [A1 A2] end.
  cbn [set_pos s_pos] in A2. split; [exact A1|]. split; [exact D1|]. split; [exact D2|]. split.
  - intros u Hu. rewrite A2, TxMoney.pos_get_set. destruct (Z.eqb_spec u t); [contradiction|]. rewrite andb_false_r. reflexivity.
  - assert (Hh: hold b s t = pv b (t_ix t0)).
    { unfold hold. rewrite A2, TxMoney.pos_get_set, Z.eqb_refl, E, andb_true_r. destruct b0; cbn [negb]; [reflexivity|].
      rewrite (D5 eq_refl). reflexivity. }
    rewrite Hh. unfold hold. rewrite E. split; [exact D3|]. split.
    + intros Hz. apply D4. destruct Hok as [H1 H2]. unfold pv in Hz. destruct (Z.ltb_spec 0 (t_ix p)); [nia|lia].
    + rewrite A2, Z.eqb_refl, andb_true_r. destruct b0; cbn [negb]; [|congruence]. intros _. rewrite (D6 eq_refl). reflexivity.
Qed.

Lemma release_both_spec a bt st bb sb now a' bb' sb' : index_ok bb -> index_ok sb -> one_each a -> bt <> st ->
  release_both a bt st bb sb now = Some (a', bb', sb') ->
  one_each a' /\ same_indexes bb bb' /\ same_indexes sb sb' /\ b_fees bb' = b_fees bb /\ b_fees sb' = b_fees sb /\
  (forall u, u <> bt -> u <> st -> pos_get (s_pos a') u = pos_get (s_pos a) u) /\
  - tok < hold bb a' bt - hold bb a bt <= 0 /\ (hold bb a bt <= 0 -> hold bb a' bt = hold bb a bt) /\ (pos_get (s_pos a') bt <> None -> hold bb a' bt = hold bb a bt) /\
  - tok < hold sb a' st - hold sb a st <= 0 /\ (hold sb a st <= 0 -> hold sb a' st = hold sb a st) /\ (pos_get (s_pos a') st <> None -> hold sb a' st = hold sb a st).
Proof.
  intros H1 H2 N Hne H. unfold release_both in H. inv_opt H. injection H as <- <- <-. subst.
  match goal with A : srelease a _ _ _ = Some _ |- _ => apply srelease_spec in A; [|assumption|assumption]; destruct A as (A1 & A2 & A3 & A4 & A5 & A6 & A7) end.
  match goal with A : srelease _ _ _ _ = Some _ |- _ => apply srelease_spec in A; [|assumption|assumption]; destruct A as (B1 & B2 & B3 & B4 & B5 & B6 & B7) end.
  split; [exact B1|]. split; [exact A2|]. split; [exact B2|]. split; [exact A3|]. split; [exact B3|].
  split; [intros u U1 U2; rewrite B4, A4; auto|].
  assert (E1: forall x y, (forall u, u <> st -> pos_get (s_pos x) u = pos_get (s_pos y) u) -> hold bb x bt = hold bb y bt).
  { intros x y Hxy. unfold hold. rewrite Hxy; auto. }
  assert (E2: forall x y, (forall u, u <> bt -> pos_get (s_pos x) u = pos_get (s_pos y) u) -> hold sb x st = hold sb y st).
  { intros x y Hxy. unfold hold. rewrite Hxy; auto. }
  rewrite (E1 _ _ B4). rewrite (E2 _ _ A4) in B5, B6, B7.
  split; [exact A5|]. split; [exact A6|]. split; [rewrite B4 by auto; exact A7|]. auto.
Qed.

(** ** the trade *)
Lemma swap_trade_spec c q mb ms bb sb ebp esp rbp rsp bp sp now x : usable bb -> usable sb ->
  0 <= mb <= U64_MAX -> 0 <= ms <= U64_MAX ->
  swap_trade c q mb ms bb sb ebp esp rbp rsp bp sp now = Some x ->
  exists (fb fs : Z) (eact sact : bool),
  let sell := x_buy x * q_premium q / fone in
  0 <= x_got x <= sell /\ sell <= x_paid x /\ x_got x = sell - sell * k_taker c / fone /\
  0 <= fb <= fmul (b_lof bb) (of_int (x_buy x)) /\ 0 <= fs <= fmul (b_lof sb) (of_int (x_paid x)) /\
  same_indexes bb (x_bb x) /\ same_indexes sb (x_sb x) /\
  b_fees (x_bb x) = b_fees bb + fb /\ b_fees (x_sb x) = b_fees sb + fs + of_int (x_paid x - x_got x) /\
  (of_int (x_buy x) * fone - fone - (if eact then 0 else tok) < pv bb (t_ix (x_ebp x)) - pv bb (t_ix ebp) < of_int (x_buy x) * fone + slack bb) /\
  (eact = false -> t_use ebp <= 0) /\
  (- (of_int (x_buy x) + fb) * fone - fone - (if x_rb_act x then 0 else tok) < pv bb (t_ix (x_rbp x)) - pv bb (t_ix rbp) < - (of_int (x_buy x) + fb) * fone + maxix bb) /\
  (x_rb_act x = false -> t_ix (x_rbp x) = 0) /\
  (- (of_int (x_paid x) + fs) * fone - fone - (if sact then 0 else tok) < pv sb (t_ix (x_esp x)) - pv sb (t_ix esp) < - (of_int (x_paid x) + fs) * fone + maxix sb) /\
  (sact = false -> t_use esp <= 0) /\
  (of_int (x_got x) * fone - fone - (if x_rs_act x then 0 else tok) < pv sb (t_ix (x_rsp x)) - pv sb (t_ix rsp) < of_int (x_got x) * fone + slack sb) /\
  (x_rs_act x = false -> t_ix (x_rsp x) = 0) /\
  (of_int (x_paid x) <= native sb esp -> 0 <= t_ix (x_esp x) /\ fs = 0) /\
  (x_paid x = 0 -> x_esp x = esp) /\ (x_buy x = 0 -> x_ebp x = ebp) /\
  (of_int (x_buy x) <= native bb rbp -> 0 <= t_ix (x_rbp x) /\ fb = 0) /\ (x_buy x = 0 -> x_rbp x = rbp).
Proof.
  intros (Hb1 & Hb2 & Hb3) (Hs1 & Hs2 & Hs3) Hmb Hms H. unfold swap_trade in H. inv_opt H. apply some_inj in H. subst x. subst.
  cbn [x_buy x_paid x_got x_bb x_sb x_ebp x_esp x_rbp x_rsp x_rb_act x_rs_act].
  match goal with A : trade_amount _ _ _ _ _ _ _ _ _ _ = Some (?b1, ?p1) |- _ => apply trade_amount_some in A; [|lia|lia]; destruct A as (T1 & T2 & _) end.
  repeat match goal with A : chk_u64 _ = Some _ |- _ => apply chk_u64_some in A as [-> A] end.
  unfold taker_fee in *. rewrite !ffloor_to_int, !fmul_int_l in *.
  match goal with A : checked_transfer bb _ _ _ _ _ _ = Some _ |- _ => apply transfer_step in A; [|split; assumption|assumption|apply (of_int_le 0); lia|apply (of_int_le 0); lia];
    destruct A as (B1 & B2 & B3 & B4 & B5 & B6 & B7 & B8 & B9 & B10 & B11 & B12 & B13 & B14 & B15 & B16) end.
  match goal with A : checked_transfer sb _ _ _ _ _ _ = Some _ |- _ => apply transfer_step in A; [|split; assumption|assumption|apply (of_int_le 0); lia|apply (of_int_le 0); lia];
    destruct A as (S1 & S2 & S3 & S4 & S5 & S6 & S7 & S8 & S9 & S10 & S11 & S12 & S13 & S14 & S15 & S16) end.
  set (sell := z * q_premium q / fone) in *.
  assert (Et: fmul (ffloor (z * q_premium q)) (k_taker c) / fone = sell * k_taker c / fone).
  { replace (ffloor (z * q_premium q)) with (of_int sell) by (unfold ffloor, of_int, sell; reflexivity). rewrite fmul_int_l. reflexivity. }
  rewrite Et in *. clear Et. clearbody sell. set (tk := sell * k_taker c / fone) in *.
  exists (w_fee w), (w_fee w0), b, (w_active w0). cbn zeta.
  split; [lia|]. split; [lia|]. split; [reflexivity|]. split; [exact B4|]. split; [exact S4|]. split; [exact B1|].
  split; [eapply same_trans; [exact S1|split; [|split; [|split]]; reflexivity]|]. split; [exact B5|].
  split; [cbn [set_totals b_fees]; rewrite S5; replace (z0 - (sell - tk)) with (z0 - sell + tk) by lia; reflexivity|].
  unfold slack. fold (maxix bb). fold (maxix sb). rewrite !Z.add_assoc.
  split; [exact B8|]. split; [intros E; apply (B9 E)|]. split; [exact B6|]. split; [intros E; apply (B7 E)|].
  split; [exact S6|]. split; [intros E; apply (S7 E)|]. split; [exact S8|]. split; [intros E; apply (S9 E)|].
  split; [exact S12|]. split; [intros ->; apply S13; reflexivity|]. split; [intros ->; apply B14; reflexivity|]. split; [exact B12|intros ->; apply B13; reflexivity].
Qed.

Lemma ensured_hold a t u a' b v : (let* x := sensure a t in sensure x u) = Some a' -> one_each a ->
  one_each a' /\ hold b a' v = hold b a v.
Proof.
  destruct (sensure a t) as [x|] eqn:E; [|discriminate]. intros H N.
  destruct (sensure_hold a t x b v E N) as [N1 H1]. destruct (sensure_hold x u a' b v H N1) as [N2 H2]. split; [exact N2|congruence].
Qed.
Lemma hold_dom a b t : hold b a t <> 0 -> pos_get (s_pos a) t <> None.
Proof. unfold hold. destruct (pos_get (s_pos a) t); congruence. Qed.

Lemma get_set2 l bt st pb ps u : bt <> st -> pos_get l bt <> None -> pos_get l st <> None ->
  pos_get (pos_set (pos_set l bt pb) st ps) u = if u =? bt then Some pb else if u =? st then Some ps else pos_get l u.
Proof.
  intros Hne H1 H2. rewrite !TxMoney.pos_get_set. destruct (Z.eqb_spec u st) as [->|].
  - destruct (Z.eqb_spec st bt); [congruence|]. destruct (pos_get l st); [reflexivity|congruence].
  - destruct (Z.eqb_spec u bt) as [->|]; [|reflexivity]. destruct (pos_get l bt); [reflexivity|congruence].
Qed.

Lemma sput_eq {A} (f : Z -> option A) k v : sput f k v k = Some v.
Proof. unfold sput. rewrite Z.eqb_refl. reflexivity. Qed.
Lemma sput_ne {A} (f : Z -> option A) k v x : x <> k -> sput f k v x = f x.
Proof. intros H. unfold sput. destruct (Z.eqb_spec x k); congruence. Qed.

Lemma traded_moves w lk rk i id mb ms mn bp sp q h now w' ev liqee liqor c bb sb :
  traded w lk rk i id mb ms mn bp sp q h now w' ev -> 0 <= mb <= U64_MAX -> 0 <= ms <= U64_MAX ->
  sw_accts w lk = Some liqee -> sw_accts w rk = Some liqor -> nth_error (s_swaps liqee) i = Some c ->
  sw_banks w (k_buy c) = Some bb -> sw_banks w (k_sell c) = Some sb ->
  usable bb -> usable sb -> one_each liqee -> one_each liqor -> needed liqee (k_buy c) -> needed liqee (k_sell c) ->
  exists buy paid got fb fs rest, ev = ETrigger lk id buy paid :: rest /\
    let sell := buy * q_premium q / fone in
    got = sell - sell * k_taker c / fone /\ 0 <= got <= sell /\ sell <= paid /\ 0 <= buy <= mb /\ 0 <= paid <= ms /\
    0 <= fb <= fmul (b_lof bb) (of_int buy) /\ 0 <= fs <= fmul (b_lof sb) (of_int paid) /\
    balance_moves w w' lk (k_buy c) bb (buy * token_unit) /\
    balance_moves w w' lk (k_sell c) sb (- paid * token_unit - fs * fone) /\
    balance_moves w w' rk (k_buy c) bb (- buy * token_unit - fb * fone) /\
    balance_moves w w' rk (k_sell c) sb (got * token_unit) /\
    fees_of w' (k_buy c) = fees_of w (k_buy c) + fb /\
    fees_of w' (k_sell c) = fees_of w (k_sell c) + fs + (paid - got) * fone /\
    (forall k t, (k <> lk /\ k <> rk) \/ (t <> k_buy c /\ t <> k_sell c) -> balance w' k t = balance w k t) /\
    (of_int paid <= Z.max 0 (balance w lk (k_sell c) / fone) -> fs = 0) /\
    (k_deps c = false \/ deposits_reduce_only bb = true ->
       balance w' lk (k_buy c) < Z.max (balance w lk (k_buy c)) token_unit + fone + slack bb) /\
    (k_bors c = false \/ borrows_reduce_only sb = true -> Z.min (balance w lk (k_sell c)) 0 <= balance w' lk (k_sell c) /\ fs = 0) /\
    (borrows_reduce_only bb = true -> Z.min (balance w rk (k_buy c)) 0 <= balance w' rk (k_buy c)).
Proof.
  intros H Hmb Hms Hl0 Hr0 Hn0 Hb0 Hs0 Ub Us N1 N2 Nb Ns.
  destruct H as [liqee' liqor' c' bb0 sb0 e1 r1 r2 e2 ebp esp rbp rsp x st done bb' sb' f
      Hlr Hl Hr Hn Hon Hid Hbb Hsb Hbs _ _ _ _ _ _ _ Ke Kr _ Ee Er Ge Gr Pe1 Pe2 Pr1 Pr2 Hx Hbo Hso _ Hr2 He2 Ew Eev].
  rewrite Hl in Hl0. injection Hl0 as ->. rewrite Hr in Hr0. injection Hr0 as ->. rewrite Hn in Hn0. injection Hn0 as ->.
  rewrite Hbb in Hb0. injection Hb0 as ->. rewrite Hsb in Hs0. injection Hs0 as ->.
  set (B := k_buy c) in *. set (S := k_sell c) in *.
  pose proof (swap_trade_amounts _ _ _ _ _ _ _ _ _ _ _ _ _ _ Hmb Hms Hx) as Ha.
  apply trade_amount_some in Ha; [|lia|lia]. destruct Ha as (A1 & A2 & _ & _ & _ & _ & A7 & A8 & A9 & _).
  assert (Hokb: index_ok bb) by (destruct Ub as (? & ? & ?); split; assumption).
  assert (Hoks: index_ok sb) by (destruct Us as (? & ? & ?); split; assumption).
  apply swap_trade_spec in Hx; [|assumption|assumption|assumption|assumption].
  destruct Hx as (fb & fs & eact & sact & X1 & X2 & X3 & X4 & X5 & X6 & X7 & X8 & X9 & X10 & X11 & X12 & X13 & X14 & X15 & X16 & X17 & X18 & X19 & X20 & X21 & X22).
  (* the liqee's positions are needed *)
  assert (Ebu: eact = true).
  { destruct eact; [reflexivity|]. exfalso. specialize (X11 eq_refl). destruct Nb as (p & Hp & Hu). apply Ge in Hp. congruence || (rewrite Hp in Pe1; injection Pe1 as ->; lia). }
  assert (Esu: sact = true).
  { destruct sact; [reflexivity|]. exfalso. specialize (X15 eq_refl). destruct Ns as (p & Hp & Hu). apply Ge in Hp. congruence || (rewrite Hp in Pe2; injection Pe2 as ->; lia). }
  subst eact sact.
  (* liqee side *)
  pose proof (fun b v => ensured_hold _ _ _ _ b v Ee N1) as He. destruct (He bb B) as [Ne _].
  pose proof (fun b v => ensured_hold _ _ _ _ b v Er N2) as Hrr. destruct (Hrr bb B) as [Nr _].
  set (a1 := set_flag (set_pos e1 (pos_set (pos_set (s_pos e1) B (x_ebp x)) S (x_esp x))) f) in *.
  assert (Na1: one_each a1). { unfold one_each, a1. cbn [set_flag set_pos s_pos]. rewrite !TxMoney.pos_set_keys. exact Ne. }
  assert (Ga1: forall u, pos_get (s_pos a1) u = if u =? B then Some (x_ebp x) else if u =? S then Some (x_esp x) else pos_get (s_pos e1) u).
  { intros u. unfold a1. cbn [set_flag set_pos s_pos]. apply get_set2; [exact Hbs|congruence|congruence]. }
  assert (Hok1: index_ok (x_bb x)) by (eapply same_ok; eassumption).
  assert (Hok2: index_ok (x_sb x)) by (eapply same_ok; eassumption).
  assert (L: same_indexes bb bb' /\ same_indexes sb sb' /\ b_fees bb' = b_fees (x_bb x) /\ b_fees sb' = b_fees (x_sb x) /\
    (forall u, u <> B -> u <> S -> pos_get (s_pos e2) u = pos_get (s_pos a1) u) /\
    - tok < hold bb e2 B - hold bb a1 B <= 0 /\ (pos_get (s_pos e2) B <> None -> hold bb e2 B = hold bb a1 B) /\
    - tok < hold sb e2 S - hold sb a1 S <= 0 /\ (pos_get (s_pos e2) S <> None -> hold sb e2 S = hold sb a1 S)).
  { cbv zeta in He2. fold a1 in He2. destruct done.
    - apply release_both_spec in He2; [|exact Hok1|exact Hok2|exact Na1|exact Hbs].
      destruct He2 as (R1 & R2 & R3 & R4 & R5 & R6 & R7 & _ & R8 & R9 & _ & R10).
      cbn [set_swaps s_pos] in *. 
      assert (Q1: forall a u, hold (x_bb x) a u = hold bb a u) by (intros; apply hold_same; exact X6).
      assert (Q2: forall a u, hold (x_sb x) a u = hold sb a u) by (intros; apply hold_same; exact X7).
      rewrite !Q1 in R7, R8. rewrite !Q2 in R9, R10.
      split; [eapply same_trans; eassumption|]. split; [eapply same_trans; eassumption|]. split; [exact R4|]. split; [exact R5|].
      split; [exact R6|]. split; [exact R7|]. split; [exact R8|]. split; [exact R9|exact R10].
    - apply some_inj in He2. apply pair_equal_spec in He2 as [He2 <-]. apply pair_equal_spec in He2 as [<- <-].
      assert (0 < tok) by (unfold tok; pose proof fone_pos; lia).
      assert (Q: forall b u, hold b (set_swaps a1 (upd (s_swaps liqee) i (set_progress c (k_bought c + x_buy x) (k_sold c + x_paid x) st))) u = hold b a1 u) by reflexivity.
      rewrite !Q. split; [exact X6|]. split; [exact X7|]. split; [reflexivity|]. split; [reflexivity|]. split; [reflexivity|]. split; [lia|]. split; [reflexivity|]. split; [lia|reflexivity]. }
  destruct L as (L1 & L2 & L3 & L4 & L5 & L6 & L7 & L8 & L9).
  (* liqor side *)
  set (q1 := set_pos r1 (pos_set (pos_set (s_pos r1) B (x_rbp x)) S (x_rsp x))) in *.
  assert (Nq1: one_each q1). { unfold one_each, q1. cbn [set_pos s_pos]. rewrite !TxMoney.pos_set_keys. exact Nr. }
  assert (Gq1: forall u, pos_get (s_pos q1) u = if u =? B then Some (x_rbp x) else if u =? S then Some (x_rsp x) else pos_get (s_pos r1) u).
  { intros u. unfold q1. cbn [set_pos s_pos]. apply get_set2; [exact Hbs|congruence|congruence]. }
  destruct (drop_if_inactive q1 B (x_rb_act x)) as [q2|] eqn:D1; [|discriminate].
  apply drop_spec in D1; [|exact Nq1]. destruct D1 as [Nq2 D1]. apply drop_spec in Hr2; [|exact Nq2]. destruct Hr2 as [_ D2].
  assert (hb: forall b u, hold b e1 u = hold b liqee u) by (intros; apply He).
  assert (hr: forall b u, hold b r1 u = hold b liqor u) by (intros; apply Hrr).
  assert (HeB: hold bb a1 B = pv bb (t_ix (x_ebp x))) by (unfold hold; rewrite Ga1, Z.eqb_refl; reflexivity).
  assert (HeS: hold sb a1 S = pv sb (t_ix (x_esp x))).
  { unfold hold. rewrite Ga1, Z.eqb_refl. destruct (Z.eqb_spec S B); [congruence|reflexivity]. }
  assert (HoB: hold bb liqee B = pv bb (t_ix ebp)) by (rewrite <- hb; unfold hold; rewrite Pe1; reflexivity).
  assert (HoS: hold sb liqee S = pv sb (t_ix esp)) by (rewrite <- hb; unfold hold; rewrite Pe2; reflexivity).
  assert (HrB: hold bb liqor B = pv bb (t_ix rbp)) by (rewrite <- hr; unfold hold; rewrite Pr1; reflexivity).
  assert (HrS: hold sb liqor S = pv sb (t_ix rsp)) by (rewrite <- hr; unfold hold; rewrite Pr2; reflexivity).
  assert (GB: pos_get (s_pos r2) B = if x_rb_act x then Some (x_rbp x) else None).
  { rewrite D2, D1, Gq1, Z.eqb_refl. destruct (Z.eqb_spec B S); [congruence|]. rewrite andb_false_r, andb_true_r. destruct (x_rb_act x); reflexivity. }
  assert (GS: pos_get (s_pos r2) S = if x_rs_act x then Some (x_rsp x) else None).
  { rewrite D2, D1, Gq1, Z.eqb_refl. destruct (Z.eqb_spec S B); [congruence|]. rewrite andb_false_r, andb_true_r. destruct (x_rs_act x); reflexivity. }
  assert (HnB: hold bb r2 B = pv bb (t_ix (x_rbp x))).
  { unfold hold. rewrite GB. destruct (x_rb_act x); [reflexivity|]. rewrite X13; reflexivity. }
  assert (HnS: hold sb r2 S = pv sb (t_ix (x_rsp x))).
  { unfold hold. rewrite GS. destruct (x_rs_act x); [reflexivity|]. rewrite X17; reflexivity. }
  (* the world *)
  assert (WB: sw_banks w' B = Some bb') by (subst w'; cbn [sw_banks]; rewrite sput_ne by exact Hbs; apply sput_eq).
  assert (WS: sw_banks w' S = Some sb') by (subst w'; cbn [sw_banks]; apply sput_eq).
  assert (WL: sw_accts w' lk = Some e2) by (subst w'; cbn [sw_accts]; rewrite sput_ne by exact Hlr; apply sput_eq).
  assert (WR: sw_accts w' rk = Some r2) by (subst w'; cbn [sw_accts]; apply sput_eq).
  assert (T: forall y, of_int y * fone = y * token_unit) by (intros; unfold of_int, token_unit; ring).
  assert (M0: maxix bb < slack bb /\ maxix sb < slack sb) by (unfold slack; fold (maxix bb); fold (maxix sb); pose proof fone_pos; lia).
  assert (OpE: forall t, opened w' lk t = true <-> pos_get (s_pos e2) t <> None).
  { intros t. unfold opened. rewrite WL. destruct (pos_get (s_pos e2) t); split; congruence. }
  exists (x_buy x), (x_paid x), (x_got x), fb, fs, (if done then [EClose lk id] else []).
  split; [exact Eev|]. cbv zeta in *. split; [exact X3|]. split; [exact X1|]. split; [exact X2|]. split; [exact A1|]. split; [exact A2|]. split; [exact X4|]. split; [exact X5|].
  assert (FT: token_unit = tok) by reflexivity.
  split.
  { unfold balance_moves. rewrite (hold_balance w' lk B e2 bb' WL WB), (hold_balance w lk B liqee bb Hl Hbb), (hold_same bb bb') by exact L1.
    rewrite HoB. rewrite HeB in L6, L7. rewrite <- T. destruct (opened w' lk B) eqn:Eo.
    - rewrite (L7 (proj1 (OpE B) Eo)). cbv zeta. lia.
    - cbv zeta. lia. }
  split.
  { unfold balance_moves. rewrite (hold_balance w' lk S e2 sb' WL WS), (hold_balance w lk S liqee sb Hl Hsb), (hold_same sb sb') by exact L2.
    rewrite HoS. rewrite HeS in L8, L9. pose proof (T (x_paid x)). destruct (opened w' lk S) eqn:Eo.
    - rewrite (L9 (proj1 (OpE S) Eo)). cbv zeta. lia.
    - cbv zeta. lia. }
  split.
  { unfold balance_moves. rewrite (hold_balance w' rk B r2 bb' WR WB), (hold_balance w rk B liqor bb Hr Hbb), (hold_same bb bb') by exact L1.
    rewrite HrB, HnB. pose proof (T (x_buy x)). unfold opened. rewrite WR, GB. destruct (x_rb_act x); cbv zeta; lia. }
  split.
  { unfold balance_moves. rewrite (hold_balance w' rk S r2 sb' WR WS), (hold_balance w rk S liqor sb Hr Hsb), (hold_same sb sb') by exact L2.
    rewrite HrS, HnS. pose proof (T (x_got x)). unfold opened. rewrite WR, GS. destruct (x_rs_act x); cbv zeta; lia. }
  split; [unfold fees_of; rewrite WB, Hbb; lia|]. split; [unfold fees_of; rewrite WS, Hsb; unfold of_int in X9; lia|].
  split.
  { assert (Banks: forall t, match sw_banks w t, sw_banks w' t with Some b, Some b' => same_indexes b b' | None, None => True | _, _ => False end).
    { intros t. destruct (Z.eq_dec t B) as [->|HB]; [rewrite WB, Hbb; exact L1|]. destruct (Z.eq_dec t S) as [->|HS]; [rewrite WS, Hsb; exact L2|].
      subst w'. cbn [sw_banks]. rewrite !sput_ne by assumption. destruct (sw_banks w t); [apply same_refl|exact I]. }
    intros k t Hkt. specialize (Banks t).
    assert (Hpos: match sw_accts w k, sw_accts w' k with Some a, Some a' => forall b, hold b a' t = hold b a t | None, None => True | _, _ => False end).
    { destruct (Z.eq_dec k lk) as [->|Hkl].
      - rewrite Hl, WL. intros b. rewrite <- hb. destruct Hkt as [[]|[T1 T2]]; [congruence|]. unfold hold. rewrite L5, Ga1 by assumption.
        destruct (Z.eqb_spec t B); [congruence|]. destruct (Z.eqb_spec t S); [congruence|reflexivity].
      - destruct (Z.eq_dec k rk) as [->|Hkr].
        + rewrite Hr, WR. intros b. rewrite <- hr. destruct Hkt as [[]|[T1 T2]]; [congruence|]. unfold hold. rewrite D2, D1, Gq1.
          destruct (Z.eqb_spec t B); [congruence|]. destruct (Z.eqb_spec t S); [congruence|]. rewrite !andb_false_r. reflexivity.
        + subst w'. cbn [sw_accts]. rewrite !sput_ne by assumption. destruct (sw_accts w k); auto. }
    destruct (sw_accts w k) as [a|] eqn:Ea, (sw_accts w' k) as [a'|] eqn:Ea'; try contradiction; [|unfold balance; rewrite Ea, Ea'; reflexivity].
    destruct (sw_banks w t) as [b|] eqn:Eb, (sw_banks w' t) as [b'|] eqn:Eb'; try contradiction.
    - rewrite (hold_balance w' k t a' b' Ea' Eb'), (hold_balance w k t a b Ea Eb), (hold_same b b') by exact Banks. apply Hpos.
    - unfold balance. rewrite Ea, Ea', Eb, Eb'. reflexivity. }
  assert (Fs0: of_int (x_paid x) <= Z.max (native sb esp) 0 -> fs = 0).
  { intros Hp. destruct (Z_le_gt_dec (of_int (x_paid x)) (native sb esp)) as [hh|hh]; [apply X18; exact hh|].
    assert (P0: x_paid x = 0). { clear - Hp hh A2. unfold of_int in *. pose proof fone_pos. nia. }
    rewrite P0 in X5. change (of_int 0) with 0 in X5. rewrite fmul_0_r in X5. lia. }
  pose proof (native_bounds sb esp) as [Q1 Q2]. pose proof (native_bounds bb ebp) as [Q3 Q4].
  pose proof (native_bounds bb rbp) as [Q5 Q6]. pose proof fone_pos as F0.
  assert (PV: forall b p, index_ok b -> 0 <= t_ix p -> 0 <= pv b (t_ix p)).
  { intros b p [I1 I2] Hp. unfold pv. destruct (0 <? t_ix p); nia. }
  split; [|split; [|split]].
  - intros Hp. apply Fs0. rewrite (hold_balance w lk S liqee sb Hl Hsb), HoS in Hp.
    assert (pv sb (t_ix esp) / fone <= native sb esp); [|lia].
    apply Z.lt_succ_r. apply Z.div_lt_upper_bound; [apply fone_pos|]. clear - Q1 Q2. pose proof fone_pos. lia.
  - intros Hd. specialize (A7 Hd).
    rewrite (hold_balance w' lk B e2 bb' WL WB), (hold_balance w lk B liqee bb Hl Hbb), (hold_same bb bb') by exact L1.
    rewrite HoB. rewrite HeB in L6, L7. rewrite FT.
    assert (Hmx: 0 < maxix bb) by (destruct Hokb; unfold maxix; lia). clear - L6 X10 X20 A7 Q3 Q4 A1 Hmx M0 F0 HoB.
    destruct (Z_le_gt_dec (- native bb ebp) 0) as [h1|h1].
    + assert (B0: x_buy x = 0). { rewrite Z.max_r in A7 by lia. unfold of_int in A7. destruct (Z_le_gt_dec 1 (x_buy x)) as [gg|gg]; [|lia]. exfalso. clear - A7 F0 gg. nia. }
      rewrite (X20 B0) in L6. clear - L6 Hmx M0 F0. lia.
    + rewrite Z.max_l in A7 by lia.
      assert (Hm: (of_int (x_buy x) + native bb ebp) * fone < fone * fone) by (clear - A7 F0; nia). fold tok in Hm.
      rewrite Z.mul_add_distr_r in Hm. clear - Hm L6 X10 Q3 Q4 F0. lia.
  - intros Hd. specialize (A8 Hd). split; [|apply Fs0; exact A8].
    rewrite (hold_balance w' lk S e2 sb' WL WS), (hold_balance w lk S liqee sb Hl Hsb), (hold_same sb sb') by exact L2.
    rewrite HoS. rewrite HeS in L8, L9.
    destruct (pos_get (s_pos e2) S) as [pp|] eqn:Ep; [|unfold hold; rewrite Ep; lia].
    rewrite L9 by congruence.
    destruct (Z_le_gt_dec (of_int (x_paid x)) (native sb esp)) as [h1|h1].
    + destruct (X18 h1) as [Y _]. pose proof (PV sb _ Hoks Y). lia.
    + assert (P0: x_paid x = 0) by (clear - A8 h1 F0 A2; unfold of_int in *; nia). rewrite (X19 P0). lia.
  - intros Hd. specialize (A9 Hd).
    rewrite (hold_balance w' rk B r2 bb' WR WB), (hold_balance w rk B liqor bb Hr Hbb), (hold_same bb bb') by exact L1.
    rewrite HrB, HnB.
    destruct (Z_le_gt_dec (of_int (x_buy x)) (native bb rbp)) as [h1|h1].
    + destruct (X21 h1) as [Y _]. pose proof (PV bb _ Hokb Y). lia.
    + assert (P0: x_buy x = 0) by (clear - A9 h1 F0 A1; unfold of_int in *; nia). rewrite (X22 P0). lia.
Qed.
