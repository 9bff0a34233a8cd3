(** Facts about single bank operations. *)
From Coq Require Import List ZArith Lia Bool.
From Verif Require Import OrderTree Keys Fixed PerpTypes Interest Bank.
Import ListNotations.
Open Scope Z_scope.

Definition index_ok (b : bank) : Prop := 0 < b_di b /\ 0 < b_bi b.

Lemma guard_some b : guard b = Some tt -> b = true.
Proof. destruct b; [reflexivity|discriminate]. Qed.

(** inversion of [let*] chains *)
Ltac inv_let H :=
  repeat match type of H with
  | match guard ?c with _ => _ end = Some _ =>
      let E := fresh "G" in destruct c eqn:E; cbn [guard] in H; [|discriminate H]
  end.

Lemma fdiv_pos_bounds a b : 0 <= a -> 0 < b -> 0 <= fdiv a b /\ fdiv a b * b <= a * fone < fdiv a b * b + b.
Proof.
  intros Ha Hb. unfold fdiv. pose proof fone_pos. rewrite Z.quot_div_nonneg by nia.
  pose proof (Z.div_mod (a * fone) b ltac:(lia)). pose proof (Z.mod_pos_bound (a * fone) b Hb).
  assert (0 <= a * fone / b) by (apply Z.div_pos; nia). nia.
Qed.

Lemma cdiv_some a b c : cdiv a b = Some c -> c = fdiv a b /\ b <> 0.
Proof. unfold cdiv. destruct (Z.eqb_spec b 0); [discriminate|]. intros [= <-]. auto. Qed.

Lemma dru_bounds n i c : 0 <= n -> 0 < i -> div_rounding_up n i = Some c ->
  0 <= c /\ n * fone <= c * i < n * fone + i /\ n <= fmul c i.
Proof.
  intros Hn Hi H. unfold div_rounding_up in H. destruct (cdiv n i) as [q|] eqn:E; [|discriminate].
  apply cdiv_some in E as [-> _]. destruct (fdiv_pos_bounds n i Hn Hi) as [Hq [H1 H2]].
  set (q := fdiv n i) in *. pose proof (fmul_bounds q i) as [B1 B2]. pose proof fone_pos.
  injection H as <-. destruct (Z.ltb_spec (fmul q i) n).
  - pose proof (fmul_bounds (q + 1) i) as [B3 B4]. repeat split; try nia.
  - repeat split; try nia.
Qed.
Lemma dru_zero i c : 0 < i -> div_rounding_up 0 i = Some c -> c = 0.
Proof.
  intros Hi H. destruct (dru_bounds 0 i c ltac:(lia) Hi H) as (H0 & [H1 H2] & _).
  unfold div_rounding_up, cdiv in H. destruct (Z.eqb_spec i 0); [lia|]. unfold fdiv, fmul in H. cbn [Z.mul] in H.
  rewrite Z.quot_0_l in H by lia. cbn in H. injection H as <-. reflexivity.
Qed.
Lemma dru_some n i : 0 < i -> exists c, div_rounding_up n i = Some c.
Proof. intros Hi. unfold div_rounding_up, cdiv. destruct (Z.eqb_spec i 0); [lia|]. eauto. Qed.

(** exact value of a position, in units of 2^-96 native tokens *)
Definition pv (b : bank) (ix : fx) : Z := if 0 <? ix then ix * b_di b else ix * b_bi b.
Lemma native_bounds b p : native b p * fone <= pv b (t_ix p) < native b p * fone + fone.
Proof. unfold native, pv. destruct (0 <? t_ix p); apply fmul_bounds. Qed.
Lemma native_neg b p : index_ok b -> (native b p < 0 <-> t_ix p < 0).
Proof.
  intros [H1 H2]. pose proof (native_bounds b p) as [B1 B2]. pose proof fone_pos. unfold pv in *.
  destruct (Z.ltb_spec 0 (t_ix p)); split; intros; nia.
Qed.
Lemma pv_nonneg b ix : 0 < b_di b -> 0 <= ix -> pv b ix = ix * b_di b.
Proof. intros H1 H. unfold pv. destruct (Z.ltb_spec 0 ix); [reflexivity|]. assert (ix = 0) by lia. nia. Qed.
Lemma pv_nonpos b ix : ix <= 0 -> pv b ix = ix * b_bi b.
Proof. intros H. unfold pv. destruct (Z.ltb_spec 0 ix); [lia|reflexivity]. Qed.

(** net borrow bookkeeping only touches the window *)
Definition same_but_window (b b' : bank) : Prop := exists s n, b' = set_window b s n.
Lemma unb_window b x now b' : update_net_borrows b x now = Some b' -> same_but_window b b'.
Proof.
  unfold update_net_borrows. destruct (_ <=? now).
  - destruct (b_win_size b =? 0); [discriminate|]. intros [= <-]. eexists _, _; reflexivity.
  - destruct (chk_i64 _); [|discriminate]. intros [= <-]. eexists _, _; reflexivity.
Qed.

(** what a deposit does to bank and position *)
Record moved (b b' : bank) (p p' : tpos) : Prop := {
  mv_dep : b_dep b' - b_dep b = Z.max (t_ix p') 0 - Z.max (t_ix p) 0;
  mv_bor : b_bor b' - b_bor b = Z.max (- t_ix p') 0 - Z.max (- t_ix p) 0;
  mv_use : t_use p' = t_use p;
  mv_di : b_di b' = b_di b;
  mv_bi : b_bi b' = b_bi b;
  mv_lof : b_lof b' = b_lof b;
  mv_size : b_win_size b' = b_win_size b;
  mv_limit : b_win_limit b' = b_win_limit b;
  mv_stable : b_stable b' = b_stable b;
  mv_dlimit : b_dep_limit b' = b_dep_limit b;
  mv_serum : b_serum b' = b_serum b;
  mv_reduce : b_reduce b' = b_reduce b;
  mv_util : b_max_util b' = b_max_util b;
  mv_upd : b_upd b' = b_upd b;
  mv_par : b_par b' = b_par b;
  mv_fw : b_fw b' = b_fw b }.

Ltac mv := constructor; cbn [b_dep b_bor b_di b_bi b_lof b_win_size b_win_limit b_stable b_dep_limit b_serum b_reduce
  b_max_util b_upd b_par b_fw set_totals set_window t_ix t_use]; try reflexivity; try lia.

Lemma add_deposits_spec b p x b' p' act : index_ok b -> 0 <= x -> 0 <= t_ix p ->
  add_deposits b p x = Some (b', p', act) ->
  act = true /\ moved b b' p p' /\ b_dust b' = b_dust b /\ b_fees b' = b_fees b /\
  t_ix p <= t_ix p' /\ b_win_net b' = b_win_net b /\ b_win_start b' = b_win_start b /\
  x * fone <= (t_ix p' - t_ix p) * b_di b < x * fone + b_di b /\ (x = 0 -> t_ix p' = t_ix p) /\
  x <= fmul (t_ix p' - t_ix p) (b_di b).
Proof.
  intros [Hd Hb] Hx Hp H. unfold add_deposits in H. destruct (div_rounding_up x (b_di b)) as [c|] eqn:E; [|discriminate].
  injection H as <- <- <-. destruct (dru_bounds x _ c Hx Hd E) as (H0 & H1 & H2).
  cbn [t_ix t_use]. replace (t_ix p + c - t_ix p) with c by lia.
  split; [reflexivity|]. split; [mv|]. cbn [b_dust b_fees set_totals b_win_net b_win_start].
  repeat (split; [reflexivity || lia|]). split; [|exact H2].
  intros ->. apply dru_zero in E; lia.
Qed.

(** ** deposits *)
Lemma deposit_spec b p x d now b' p' act : index_ok b -> deposit_internal b p x d now = Some (b', p', act) ->
  0 <= x /\ moved b b' p p' /\ b_fees b' = b_fees b /\ t_ix p <= t_ix p' /\
  (act = true -> b_dust b' = b_dust b) /\
  (act = false -> d = true /\ t_ix p < 0 /\ t_ix p' = 0 /\
     b_dust b' = b_dust b + (native b p + x) /\ native b p + x < fone /\ - b_bi b - fone < (native b p + x) * fone) /\
  x * fone - fone < pv b (t_ix p') - pv b (t_ix p) + (b_dust b' - b_dust b) * fone /\
  pv b (t_ix p') - pv b (t_ix p) + (b_dust b' - b_dust b) * fone < x * fone + Z.max (b_di b) (b_bi b) /\
  (0 <= t_ix p -> x * fone <= pv b (t_ix p') - pv b (t_ix p)) /\
  (0 < t_ix p' -> (Z.max (t_ix p') 0 - Z.max (t_ix p) 0) * b_di b < x * fone + b_di b).
Proof.
  intros Hok H. pose proof Hok as [Hd Hb]. pose proof fone_pos as Hf. unfold deposit_internal in H.
  destruct (Z.leb_spec 0 x) as [Hx|]; cbn [guard] in H; [|discriminate].
  split; [exact Hx|]. pose proof (native_bounds b p) as [N1 N2].
  destruct (Z.ltb_spec (native b p) 0) as [Hn|Hn].
  - apply (native_neg b p Hok) in Hn as Hi. rewrite (pv_nonpos b (t_ix p)) in * by lia.
    destruct (update_net_borrows b _ now) as [b1|] eqn:E1; [|discriminate].
    destruct (unb_window _ _ _ _ E1) as (ws & wn & ->). cbn [b_bi set_window b_dep b_bor b_dust b_fees] in H.
    destruct (div_rounding_up x (b_bi b)) as [c|] eqn:E2; [|discriminate].
    destruct (dru_bounds x _ c Hx Hb E2) as (C0 & [C1 C2] & C3).
    destruct (Z.ltb_spec (t_ix p + c) 0) as [Hneg|Hneg].
    + injection H as <- <- <-. cbn [t_ix b_dust b_fees set_totals set_window].
      rewrite (pv_nonpos b (t_ix p + c)) by lia.
      split; [mv|]. split; [reflexivity|]. split; [lia|]. split; [reflexivity|]. split; [discriminate|].
      split; [lia|]. split; [lia|]. split; lia.
    + destruct (Z.ltb_spec (native b p + x) fone) as [Hlt|Hge]; cbn [andb] in H; [destruct d|].
      * injection H as <- <- <-. cbn [t_ix b_dust b_fees set_totals set_window].
        rewrite (pv_nonpos b 0) by lia. split; [mv|]. split; [reflexivity|]. split; [lia|]. split; [discriminate|].
        split; [intros _; repeat split; try lia; nia|]. repeat split; try lia; nia.
      * eapply add_deposits_spec in H; [|exact Hok|lia|cbn [t_ix]; lia].
        cbn [b_dust b_fees b_di set_totals set_window t_ix] in H.
        destruct H as (-> & M & Ed & Ef & L & _ & _ & [A1 A2] & A3 & A4). destruct M as [m1 m2 m3 m4 m5 m6 m7 m8 m9 m10 m11 m12 m13 m14 m15 m16].
        cbn in m1, m2, m3, m4, m5, m6, m7, m8, m9, m10, m11, m12, m13, m14, m15, m16. rewrite Z.sub_0_r in *.
        rewrite (pv_nonneg b (t_ix p')) by lia.
        split; [constructor; try assumption; lia|]. split; [exact Ef|]. split; [lia|]. split; [auto|]. split; [discriminate|].
        rewrite Ed. destruct (Z.max_spec (native b p + x) 0) as [[? Em]|[? Em]]; rewrite Em in *; repeat split; try lia; nia.
      * eapply add_deposits_spec in H; [|exact Hok|lia|cbn [t_ix]; lia].
        cbn [b_dust b_fees b_di set_totals set_window t_ix] in H.
        destruct H as (-> & M & Ed & Ef & L & _ & _ & [A1 A2] & A3 & A4). destruct M as [m1 m2 m3 m4 m5 m6 m7 m8 m9 m10 m11 m12 m13 m14 m15 m16].
        cbn in m1, m2, m3, m4, m5, m6, m7, m8, m9, m10, m11, m12, m13, m14, m15, m16. rewrite Z.sub_0_r in *.
        rewrite (pv_nonneg b (t_ix p')) by lia.
        split; [constructor; try assumption; lia|]. split; [exact Ef|]. split; [lia|]. split; [auto|]. split; [discriminate|].
        rewrite Ed. rewrite Z.max_l in * by lia. repeat split; try lia; nia.
  - assert (Hi : 0 <= t_ix p) by (destruct (Z_lt_le_dec (t_ix p) 0) as [h|h]; [apply (native_neg b p Hok) in h; lia|exact h]).
    apply add_deposits_spec in H; [|assumption..].
    destruct H as (-> & M & Ed & Ef & L & _ & _ & [A1 A2] & A3 & A4). rewrite (pv_nonneg b (t_ix p)), (pv_nonneg b (t_ix p')) by lia.
    split; [exact M|]. split; [exact Ef|]. split; [exact L|]. split; [auto|]. split; [discriminate|].
    rewrite Ed. repeat split; try lia; nia.
Qed.

(** ** withdrawals *)
(** the part of a withdrawal of [x] that has to be borrowed *)
Definition to_borrow (b : bank) (p : tpos) (x : fx) : fx := x - Z.max (native b p) 0.

Lemma add_borrows_spec b p x wf now b' p' r : index_ok b -> 0 <= b_lof b -> 0 <= x -> t_ix p <= 0 ->
  add_borrows b p x wf now = Some (b', p', r) ->
  let fee := if wf then fmul (b_lof b) x else 0 in
  0 <= fee /\ r = mkWres true fee (x + fee) /\ moved b b' p p' /\ b_dust b' = b_dust b /\ b_fees b' = b_fees b + fee /\
  t_ix p' <= t_ix p /\
  (t_ix p - t_ix p') * b_bi b <= (x + fee) * fone < (t_ix p - t_ix p') * b_bi b + b_bi b /\
  exists b1, update_net_borrows b1 (x + fee) now = Some b' /\ b_win_net b1 = b_win_net b /\ b_win_start b1 = b_win_start b /\
    b_win_size b1 = b_win_size b.
Proof.
  intros [Hd Hb] Hl Hx Hp H. cbn zeta. unfold add_borrows in H. set (fee := if wf then fmul (b_lof b) x else 0) in *.
  assert (Hfee : 0 <= fee).
  { unfold fee. destruct wf; [|lia]. unfold fmul. apply Z.div_pos; [nia|apply fone_pos]. }
  destruct (cdiv (x + fee) (b_bi b)) as [c|] eqn:E; [|discriminate]. apply cdiv_some in E as [-> _].
  destruct (fdiv_pos_bounds (x + fee) (b_bi b) ltac:(lia) Hb) as (C0 & C1 & C2).
  destruct (update_net_borrows _ (x + fee) now) as [b1|] eqn:E; [|discriminate].
  pose proof (unb_window _ _ _ _ E) as (ws & wn & Eb). injection H as <- <- <-. cbn [t_ix t_use].
  split; [exact Hfee|]. split; [reflexivity|]. split; [rewrite Eb; mv|]. split; [rewrite Eb; reflexivity|].
  split; [rewrite Eb; reflexivity|]. split; [lia|]. split; [nia|].
  eexists. split; [exact E|]. split; [reflexivity|]. split; reflexivity.
Qed.

Lemma withdraw_spec b p x wf d now b' p' r : index_ok b -> 0 <= b_lof b ->
  withdraw_internal b p x wf d now = Some (b', p', r) ->
  0 <= x /\ moved b b' p p' /\ t_ix p' <= t_ix p /\
  0 <= w_fee r /\ b_fees b' = b_fees b + w_fee r /\
  w_fee r = (if wf && (0 <? to_borrow b p x) then fmul (b_lof b) (to_borrow b p x) else 0) /\
  w_loan r = (if 0 <? to_borrow b p x then to_borrow b p x + w_fee r else 0) /\
  (w_active r = true -> b_dust b' = b_dust b) /\
  (w_active r = false -> d = true /\ 0 <= t_ix p /\ t_ix p' = 0 /\ b_dust b' = b_dust b + (native b p - x) /\
     0 <= native b p - x < fone /\ to_borrow b p x <= 0) /\
  - (x + w_fee r) * fone - fone < pv b (t_ix p') - pv b (t_ix p) + (b_dust b' - b_dust b) * fone /\
  pv b (t_ix p') - pv b (t_ix p) + (b_dust b' - b_dust b) * fone < - (x + w_fee r) * fone + Z.max (b_di b) (b_bi b) /\
  (x <= native b p -> 0 <= t_ix p') /\
  (native b p < x -> t_ix p' <= 0) /\
  (0 <= t_ix p -> x <= native b p -> w_active r = true -> pv b (t_ix p) - pv b (t_ix p') <= x * fone).
Proof.
  intros Hok Hl H. pose proof Hok as [Hd Hb]. pose proof fone_pos as Hf. unfold withdraw_internal in H.
  destruct (Z.leb_spec 0 x) as [Hx|]; cbn [guard] in H; [|discriminate].
  split; [exact Hx|]. pose proof (native_bounds b p) as [N1 N2]. unfold to_borrow.
  destruct (Z.ltb_spec (native b p) 0) as [Hn|Hn]; cbn [negb] in H.
  - apply (native_neg b p Hok) in Hn as Hi. rewrite (pv_nonpos b (t_ix p)) in * by lia.
    apply add_borrows_spec in H; [|assumption..|lia]. cbn zeta in H.
    rewrite (Z.max_r (native b p) 0), Z.sub_0_r by lia.
    set (fee := if wf then fmul (b_lof b) x else 0) in *.
    destruct H as (F0 & -> & M & Ed & Ef & L & [C1 C2] & _). cbn [w_active w_fee w_loan].
    rewrite (pv_nonpos b (t_ix p')) by lia.
    split; [exact M|]. split; [exact L|]. split; [exact F0|]. split; [exact Ef|].
    destruct (Z.ltb_spec 0 x) as [Hpos|Hz].
    + rewrite andb_true_r. split; [reflexivity|]. split; [reflexivity|]. split; [auto|]. split; [discriminate|].
      rewrite Ed. repeat split; try lia; nia.
    + assert (x = 0) by lia. subst x. assert (Efee : fee = 0) by (unfold fee, fmul; rewrite Z.mul_0_r; destruct wf; reflexivity).
      rewrite andb_false_r, Efee in *. split; [reflexivity|]. split; [reflexivity|]. split; [auto|]. split; [discriminate|].
      rewrite Ed. repeat split; try lia; nia.
  - assert (Hi : 0 <= t_ix p) by (destruct (Z_lt_le_dec (t_ix p) 0) as [h|h]; [apply (native_neg b p Hok) in h; lia|exact h]).
    rewrite (pv_nonneg b (t_ix p)) in * by lia. rewrite (Z.max_l (native b p) 0) by lia.
    destruct (Z.ltb_spec (native b p - x) 0) as [Hneg|Hneg]; cbn [negb] in H.
    + apply add_borrows_spec in H; [|exact Hok|exact Hl|lia|cbn [t_ix]; lia]. cbn zeta in H.
      cbn [b_lof b_bi b_dust b_fees set_totals t_ix] in H.
      replace (- (native b p - x)) with (x - native b p) in H by lia.
      set (fee := if wf then fmul (b_lof b) (x - native b p) else 0) in *.
      destruct H as (F0 & -> & M & Ed & Ef & L & [C1 C2] & _). destruct M as [m1 m2 m3 m4 m5 m6 m7 m8 m9 m10 m11 m12 m13 m14 m15 m16].
      cbn in m1, m2, m3, m4, m5, m6, m7, m8, m9, m10, m11, m12, m13, m14, m15, m16. cbn [w_active w_fee w_loan].
      rewrite (pv_nonpos b (t_ix p')) by lia.
      split; [constructor; try assumption; lia|]. split; [lia|]. split; [exact F0|]. split; [exact Ef|].
      destruct (Z.ltb_spec 0 (x - native b p)) as [Hpos|Hz]; [|lia]. rewrite andb_true_r.
      split; [reflexivity|]. split; [reflexivity|]. split; [auto|]. split; [discriminate|].
      rewrite Ed. repeat split; try lia; nia.
    + destruct (Z.ltb_spec (native b p - x) fone) as [Hlt|Hge]; cbn [andb] in H; [destruct d|].
      * injection H as <- <- <-. cbn [w_active w_fee w_loan t_ix b_dust b_fees set_totals].
        rewrite (pv_nonneg b 0) by lia.
        split; [mv|]. split; [lia|]. split; [lia|]. split; [lia|].
        destruct (Z.ltb_spec 0 (x - native b p)) as [Hpos|Hz]; [lia|]. rewrite andb_false_r.
        split; [reflexivity|]. split; [reflexivity|]. split; [discriminate|].
        split; [intros _; repeat split; lia|]. repeat split; try lia; nia.
      * destruct (cdiv x (b_di b)) as [c|] eqn:E; [|discriminate]. apply cdiv_some in E as [-> _].
        destruct (fdiv_pos_bounds x (b_di b) Hx Hd) as (C0 & C1 & C2).
        assert (fdiv x (b_di b) <= t_ix p) by nia.
        injection H as <- <- <-. cbn [w_active w_fee w_loan t_ix b_dust b_fees set_totals].
        rewrite (pv_nonneg b (t_ix p - _)) by lia.
        split; [mv|]. split; [lia|]. split; [lia|]. split; [lia|].
        destruct (Z.ltb_spec 0 (x - native b p)) as [Hpos|Hz]; [lia|]. rewrite andb_false_r.
        split; [reflexivity|]. split; [reflexivity|]. split; [auto|]. split; [discriminate|].
        repeat split; try lia; nia.
      * destruct (cdiv x (b_di b)) as [c|] eqn:E; [|discriminate]. apply cdiv_some in E as [-> _].
        destruct (fdiv_pos_bounds x (b_di b) Hx Hd) as (C0 & C1 & C2).
        assert (fdiv x (b_di b) <= t_ix p) by nia.
        injection H as <- <- <-. cbn [w_active w_fee w_loan t_ix b_dust b_fees set_totals].
        rewrite (pv_nonneg b (t_ix p - _)) by lia.
        split; [mv|]. split; [lia|]. split; [lia|]. split; [lia|].
        destruct (Z.ltb_spec 0 (x - native b p)) as [Hpos|Hz]; [lia|]. rewrite andb_false_r.
        split; [reflexivity|]. split; [reflexivity|]. split; [auto|]. split; [discriminate|].
        repeat split; try lia; nia.
Qed.

(** operations never fail for lack of index *)
Lemma add_deposits_some b p x : 0 < b_di b -> exists r, add_deposits b p x = Some r.
Proof. intros H. unfold add_deposits. destruct (dru_some x _ H) as [c ->]. eauto. Qed.
