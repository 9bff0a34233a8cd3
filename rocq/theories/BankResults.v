(** Results about single bank calls and the two token instructions. *)
From Coq Require Import List ZArith Lia Bool.
From Verif Require Import OrderTree Keys Fixed PerpTypes Interest InterestFacts Bank BankFacts BankSystem BankSpec BankInv.
Import ListNotations.
Open Scope Z_scope.

Lemma deposit_nonneg b p x d now b' p' act : index_ok b -> 0 <= t_ix p -> deposit_internal b p x d now = Some (b', p', act) ->
  act = true /\ 0 <= x /\ x * fone <= (t_ix p' - t_ix p) * b_di b < x * fone + b_di b /\ t_ix p <= t_ix p' /\
  b_di b' = b_di b /\ b_bi b' = b_bi b /\ t_use p' = t_use p /\ b_lof b' = b_lof b /\ (x = 0 -> t_ix p' = t_ix p) /\
  exists c, t_ix p' = t_ix p + c /\ div_rounding_up x (b_di b) = Some c.
Proof.
  intros Hok Hp H. pose proof Hok as [Hd Hb]. unfold deposit_internal in H.
  destruct (Z.leb_spec 0 x) as [Hx|]; cbn [guard] in H; [|discriminate].
  destruct (Z.ltb_spec (native b p) 0) as [Hn|Hn]; [apply (native_neg b p Hok) in Hn; lia|].
  pose proof H as H0. unfold add_deposits in H0. destruct (div_rounding_up x (b_di b)) as [c|] eqn:Ec; [|discriminate].
  injection H0 as <- <- <-.
  apply add_deposits_spec in H; [|assumption..]. destruct H as (_ & M & _ & _ & L & _ & _ & A & Z0 & _).
  destruct M as [_ _ M3 M4 M5 M6 _ _ _ _ _ _ _ _ _ _].
  split; [reflexivity|]. split; [exact Hx|]. split; [exact A|]. split; [exact L|]. repeat (split; [assumption|]).
  exists c. split; reflexivity.
Qed.

Lemma native_of b ix u : 0 < b_di b -> 0 <= ix -> native b (mkTpos ix u) = fmul ix (b_di b).
Proof. intros. unfold native. cbn [t_ix]. destruct (Z.ltb_spec 0 ix); [reflexivity|]. assert (ix = 0) by lia. subst. reflexivity. Qed.

Lemma withdraw_nonneg b p x wf d now b' p' r : index_ok b -> 0 <= t_ix p -> 0 <= x -> x <= native b p ->
  withdraw_internal b p x wf d now = Some (b', p', r) ->
  w_fee r = 0 /\ w_loan r = 0 /\ (w_active r = true -> t_ix p' = t_ix p - fdiv x (b_di b)) /\
  (w_active r = false -> t_ix p' = 0 /\ native b p - x < fone).
Proof.
  intros Hok Hp Hx Hle H. unfold withdraw_internal in H.
  destruct (Z.leb_spec 0 x); cbn [guard] in H; [|lia].
  destruct (Z.ltb_spec (native b p) 0) as [Hn|Hn]; cbn [negb] in H; [apply (native_neg b p Hok) in Hn; lia|].
  destruct (Z.ltb_spec (native b p - x) 0); cbn [negb] in H; [lia|].
  destruct (Z.ltb_spec (native b p - x) fone); cbn [andb] in H; [destruct d|].
  - injection H as <- <- <-. cbn. repeat split; try reflexivity; try discriminate; assumption.
  - destruct (cdiv x (b_di b)) as [c|] eqn:E; [|discriminate]. apply cdiv_inv in E as [-> _].
    injection H as <- <- <-. cbn. repeat split; reflexivity || discriminate.
  - destruct (cdiv x (b_di b)) as [c|] eqn:E; [|discriminate]. apply cdiv_inv in E as [-> _].
    injection H as <- <- <-. cbn. repeat split; reflexivity || discriminate.
Qed.

Lemma dru_vs_div x i c : 0 <= x -> 0 < i -> div_rounding_up x i = Some c -> fdiv x i <= c <= fdiv x i + 1.
Proof.
  intros Hx Hi H. unfold div_rounding_up in H. destruct (cdiv x i) as [q|] eqn:E; [|discriminate].
  apply cdiv_inv in E as [-> _]. injection H as <-. destruct (_ <? x); lia.
Qed.

(** a deposit followed by a withdrawal of the same amount *)
Lemma round_trip b p x d now b1 p1 a1 wf d' now' b2 p2 r : index_ok b -> 0 <= t_ix p ->
  deposit_internal b p x d now = Some (b1, p1, a1) -> withdraw_internal b1 p1 x wf d' now' = Some (b2, p2, r) ->
  w_fee r = 0 /\ w_loan r = 0 /\
  (w_active r = true -> t_ix p <= t_ix p2 <= t_ix p + 1) /\
  (w_active r = false -> t_ix p2 = 0 /\ t_ix p * b_di b < fone * fone).
Proof.
  intros Hok Hp H1 H2. pose proof Hok as [Hd Hb].
  destruct (deposit_nonneg _ _ _ _ _ _ _ _ Hok Hp H1) as (-> & Hx & [A1 A2] & L & E1 & E2 & _ & _ & _ & c & Ec & Hc).
  assert (Hok1 : index_ok b1) by (unfold index_ok; rewrite E1, E2; exact Hok).
  assert (Hp1 : 0 <= t_ix p1) by lia.
  assert (Hn : x <= native b1 p1).
  { destruct p1 as [ix1 u1]. cbn [t_ix] in *. rewrite native_of by (assumption || lia). rewrite E1.
    apply Z.le_trans with (fmul (ix1 - t_ix p) (b_di b)); [|apply fmul_mono_l; lia].
    unfold fmul. apply Z.div_le_lower_bound; [apply fone_pos|]. lia. }
  destruct (withdraw_nonneg _ _ _ _ _ _ _ _ _ Hok1 Hp1 Hx Hn H2) as (F & Lo & A & Dd).
  split; [exact F|]. split; [exact Lo|]. rewrite E1 in *. pose proof (dru_vs_div x (b_di b) c Hx Hd Hc).
  split.
  - intros h. rewrite (A h). lia.
  - intros h. destruct (Dd h) as [Z0 Hlt]. split; [exact Z0|].
    pose proof (native_bounds b1 p1) as [_ N2]. rewrite pv_nonneg in N2 by (rewrite ?E1; lia). rewrite E1 in N2.
    assert (native b1 p1 < x + fone) by lia. 
    assert (t_ix p * b_di b + x * fone <= t_ix p1 * b_di b) by lia.
    assert (native b1 p1 * fone <= (x + fone - 1) * fone) by (pose proof fone_pos; nia).
    lia.
Qed.

(** ** borrowing *)
Lemma withdraw_borrow b p x wf d now b' p' r : index_ok b -> 0 <= b_lof b -> 0 < to_borrow b p x ->
  withdraw_internal b p x wf d now = Some (b', p', r) ->
  let debt := to_borrow b p x + w_fee r in
  w_active r = true /\ w_loan r = debt /\ w_fee r = (if wf then fmul (b_lof b) (to_borrow b p x) else 0) /\
  ((Z.max (- t_ix p') 0 - Z.max (- t_ix p) 0) * b_bi b <= debt * fone <
  (Z.max (- t_ix p') 0 - Z.max (- t_ix p) 0) * b_bi b + b_bi b) /\
  (exists b1, update_net_borrows b1 debt now = Some b' /\ b_win_net b1 = b_win_net b /\ b_win_start b1 = b_win_start b /\
     b_win_size b1 = b_win_size b).
Proof.
  intros Hok Hl Hb H. cbn zeta. unfold withdraw_internal in H. unfold to_borrow in *.
  destruct (Z.leb_spec 0 x) as [Hx|]; cbn [guard] in H; [|discriminate].
  destruct (Z.ltb_spec (native b p) 0) as [Hn|Hn]; cbn [negb] in H.
  - apply (native_neg b p Hok) in Hn as Hi. rewrite (Z.max_r (native b p) 0), Z.sub_0_r in * by lia.
    apply add_borrows_spec in H; [|assumption..|lia]. cbn zeta in H.
    destruct H as (_ & -> & _ & _ & _ & L & C & W). cbn [w_active w_loan w_fee].
    split; [reflexivity|]. split; [reflexivity|]. split; [reflexivity|]. split; [|exact W].
    rewrite !Z.max_l by lia. lia.
  - assert (Hi : 0 <= t_ix p) by (destruct (Z_lt_le_dec (t_ix p) 0) as [h|h]; [apply (native_neg b p Hok) in h; lia|exact h]).
    rewrite (Z.max_l (native b p) 0) in * by lia.
    destruct (Z.ltb_spec (native b p - x) 0); cbn [negb] in H; [|lia].
    apply add_borrows_spec in H; [|exact Hok|exact Hl|lia|cbn [t_ix]; lia]. cbn zeta in H.
    cbn [b_lof b_bi t_ix set_totals b_win_net b_win_start b_win_size] in H.
    replace (- (native b p - x)) with (x - native b p) in H by lia.
    destruct H as (_ & -> & _ & _ & _ & L & C & W). cbn [w_active w_loan w_fee].
    split; [reflexivity|]. split; [reflexivity|]. split; [reflexivity|]. split; [|exact W].
    rewrite (Z.max_l (- t_ix p')), (Z.max_r (- t_ix p)) by lia. lia.
Qed.

(** ** the net borrow window *)
Fixpoint win_run (b : bank) (evs : list (Z * fx)) : option bank :=
  match evs with [] => Some b | (t, x) :: r => let* b' := update_net_borrows b x t in win_run b' r end.

Fixpoint counted (start : Z) (evs : list (Z * fx)) : Z :=
  match evs with
  | [] => 0
  | (t, x) :: r => (if start <=? t then Z.max (- 2 ^ 63) (Z.min (2 ^ 63 - 1) (- (- x / fone))) else 0) + counted start r
  end.
Fixpoint ordered (t0 : Z) (evs : list (Z * fx)) : Prop :=
  match evs with [] => True | (t, _) :: r => t0 <= t /\ ordered t r end.
Definition last_time (t0 : Z) (evs : list (Z * fx)) : Z := fold_left (fun _ e => fst e) evs t0.

Lemma clamp_spec x : clamp_i64 (fceil x) = Z.max (- 2 ^ 63) (Z.min (2 ^ 63 - 1) (- (- x / fone))).
Proof.
  unfold clamp_i64, fceil, to_int. rewrite Z.div_mul by (pose proof fone_pos; lia). reflexivity.
Qed.
Lemma ordered_le t0 t1 evs : t1 <= t0 -> ordered t0 evs -> ordered t1 evs.
Proof. destruct evs as [|[t x] r]; cbn; [tauto|]. intros ? [? ?]. split; [lia|assumption]. Qed.
Lemma counted_all start evs : ordered start evs -> counted start evs =
  fold_right (fun e s => Z.max (- 2 ^ 63) (Z.min (2 ^ 63 - 1) (- (- snd e / fone))) + s) 0 evs.
Proof.
  revert start. induction evs as [|[t x] r IH]; intros start Ho; [reflexivity|].
  destruct Ho as [Ho1 Ho2]. cbn [counted fold_right snd]. destruct (Z.leb_spec start t); [|lia].
  rewrite IH by (eapply ordered_le; [|exact Ho2]; lia). reflexivity.
Qed.

Lemma win_run_spec evs : forall b b', 0 < b_win_size b -> b_win_start b mod b_win_size b = 0 ->
  ordered (b_win_start b) evs -> win_run b evs = Some b' ->
  b_win_size b' = b_win_size b /\ b_win_start b' mod b_win_size b = 0 /\ b_win_start b <= b_win_start b' /\
  (b_win_start b' = b_win_start b -> b_win_net b' = b_win_net b + counted (b_win_start b') evs) /\
  (b_win_start b < b_win_start b' -> b_win_net b' = counted (b_win_start b') evs) /\
  (evs <> [] -> b_win_start b' <= last_time (b_win_start b) evs < b_win_start b' + b_win_size b).
Proof.
  induction evs as [|[t x] r IH]; intros b b' Hs Hm Ho H; cbn [win_run] in H.
  - injection H as <-. cbn [counted]. repeat split; try lia; try congruence.
  - destruct (update_net_borrows b x t) as [b1|] eqn:E; [|discriminate].
    unfold update_net_borrows in E. rewrite clamp_spec in E. destruct Ho as [Ho1 Ho2].
    set (amt := Z.max (- 2 ^ 63) (Z.min (2 ^ 63 - 1) (- (- x / fone)))) in *.
    assert (Mult : forall u v, u mod b_win_size b = 0 -> v mod b_win_size b = 0 -> u < v -> u + b_win_size b <= v).
    { intros u v Hu Hv Huv. apply Z.mod_divide in Hu as [i ->]; [|lia]. apply Z.mod_divide in Hv as [j ->]; [|lia]. clear - Huv Hs. assert (i < j) by nia. assert (i + 1 <= j) by lia. assert ((i + 1) * b_win_size b <= j * b_win_size b) by (apply Z.mul_le_mono_nonneg_r; lia). lia. }
    destruct (Z.leb_spec (b_win_start b + b_win_size b) t) as [Hnew|Hold].
    + destruct (Z.eqb_spec (b_win_size b) 0); [discriminate|]. injection E as <-.
      pose proof (Z.div_mod t (b_win_size b) ltac:(lia)) as D. pose proof (Z.mod_pos_bound t (b_win_size b) Hs) as D2.
      set (st := t / b_win_size b * b_win_size b) in *.
      assert (Hst : st mod b_win_size b = 0) by (unfold st; apply Z.mod_mul; lia).
      assert (S1 : st <= t < st + b_win_size b) by (unfold st; lia).
      assert (Hlast : r = [] -> b_win_start b' = st) by (intros ->; cbn [win_run] in H; injection H as <-; reflexivity).
      apply IH in H; cbn [b_win_size b_win_start b_win_net set_window] in *; [|exact Hs|exact Hst|eapply ordered_le; [|exact Ho2]; lia].
      destruct H as (H1 & H2 & H3 & H4 & H5 & H6).
      split; [exact H1|]. split; [exact H2|]. split; [lia|]. split; [lia|]. split.
      * intros _. cbn [counted]. fold amt. destruct (Z.leb_spec (b_win_start b') t) as [h|h].
        -- assert (Eq : b_win_start b' = st).
           { destruct (Z.eq_dec (b_win_start b') st); [assumption|]. pose proof (Mult st (b_win_start b') Hst H2 ltac:(lia)). lia. }
           apply H4 in Eq. lia.
        -- destruct (Z.eq_dec (b_win_start b') st) as [Eq|Ne]; [lia|]. rewrite H5 by lia. lia.
      * intros _. destruct r as [|e r].
        -- rewrite (Hlast eq_refl). exact S1.
        -- exact (H6 ltac:(discriminate)).
    + destruct (chk_i64 _) as [n|] eqn:En; [|discriminate]. unfold chk_i64 in En; destruct (in_i64b _); [|discriminate]; injection En as <-. injection E as <-.
      assert (Hlast : r = [] -> b_win_start b' = b_win_start b) by (intros ->; cbn [win_run] in H; injection H as <-; reflexivity).
      apply IH in H; cbn [b_win_size b_win_start b_win_net set_window] in *; [|exact Hs|exact Hm|eapply ordered_le; [|exact Ho2]; lia].
      destruct H as (H1 & H2 & H3 & H4 & H5 & H6).
      split; [exact H1|]. split; [exact H2|]. split; [lia|]. split; [|split].
      * intros Eq. cbn [counted]. fold amt. destruct (Z.leb_spec (b_win_start b') t) as [h|h]; [|lia]. rewrite (H4 Eq). lia.
      * intros Lt. cbn [counted]. fold amt. pose proof (Mult _ _ Hm H2 Lt).
        destruct (Z.leb_spec (b_win_start b') t) as [h|h]; [lia|]. rewrite (H5 Lt). lia.
      * intros _. destruct r as [|e r].
        -- rewrite (Hlast eq_refl). cbn. lia.
        -- exact (H6 ltac:(discriminate)).
Qed.

(** what deposits and withdrawals report to the window *)
Definition window_after (b b' : bank) (x : fx) (now : Z) : Prop :=
  let amt := Z.max (- 2 ^ 63) (Z.min (2 ^ 63 - 1) (- (- x / fone))) in
  (now < b_win_start b + b_win_size b -> b_win_start b' = b_win_start b /\ b_win_net b' = b_win_net b + amt) /\
  (b_win_start b + b_win_size b <= now ->
     b_win_start b' = now / b_win_size b * b_win_size b /\ b_win_net b' = amt).
Lemma unb_after b1 b x now b' : update_net_borrows b1 x now = Some b' -> b_win_net b1 = b_win_net b ->
  b_win_start b1 = b_win_start b -> b_win_size b1 = b_win_size b -> window_after b b' x now.
Proof.
  intros H E1 E2 E3. unfold update_net_borrows in H. rewrite clamp_spec, E1, E2, E3 in H. unfold window_after. cbn zeta.
  destruct (Z.leb_spec (b_win_start b + b_win_size b) now).
  - destruct (b_win_size b =? 0); [discriminate|]. injection H as <-. split; [lia|]. intros _. split; reflexivity.
  - unfold chk_i64 in H. destruct (in_i64b _); [|discriminate]. injection H as <-. split; [|lia]. intros _.
    cbn [b_win_start b_win_net set_window]. auto.
Qed.

Lemma deposit_window b p x d now b' p' act : index_ok b -> deposit_internal b p x d now = Some (b', p', act) ->
  (t_ix p < 0 -> window_after b b' (Z.max (native b p) (- x)) now) /\
  (0 <= t_ix p -> b_win_net b' = b_win_net b /\ b_win_start b' = b_win_start b).
Proof.
  intros Hok H. unfold deposit_internal in H. destruct (0 <=? x); cbn [guard] in H; [|discriminate].
  destruct (Z.ltb_spec (native b p) 0) as [Hn|Hn].
  - split; [|apply (native_neg b p Hok) in Hn; lia]. intros _.
    destruct (update_net_borrows b _ now) as [b1|] eqn:E1; [|discriminate].
    pose proof (unb_after _ b _ _ _ E1 eq_refl eq_refl eq_refl) as W. clear E1. unfold window_after in *. cbn zeta in *.
    assert (K : b_win_start b' = b_win_start b1 /\ b_win_net b' = b_win_net b1); [|destruct K as [-> ->]; exact W].
    destruct (div_rounding_up x (b_bi b1)) as [c|]; [|discriminate].
    destruct (_ <? 0); [injection H as <- _ _; split; reflexivity|].
    destruct (_ && _); [injection H as <- _ _; split; reflexivity|].
    unfold add_deposits in H. destruct (div_rounding_up _ _); [|discriminate]. injection H as <- _ _. split; reflexivity.
  - split; [intros Hi; apply (native_neg b p Hok) in Hi; lia|]. intros _.
    unfold add_deposits in H. destruct (div_rounding_up _ _); [|discriminate]. injection H as <- _ _. split; reflexivity.
Qed.

Lemma check_net_borrows_iff b oracle : check_net_borrows b oracle = true <->
  b_win_net b < 0 \/ b_win_limit b < 0 \/ Z.max oracle (b_stable b) * b_win_net b <= b_win_limit b * fone.
Proof.
  unfold check_net_borrows, remaining_net_borrows_quote, of_int. rewrite negb_true_iff, Z.ltb_ge.
  destruct (Z.ltb_spec (b_win_net b) 0); cbn [orb]; [|destruct (Z.ltb_spec (b_win_limit b) 0)]; cbn [orb].
  - split; [auto|]. intros _. discriminate.
  - split; [auto|]. intros _. discriminate.
  - lia.
Qed.

(** ** deposit limit *)
Lemma deposit_limit_kept b p x d now b' p' act : index_ok b -> b_dep_limit b <> 0 ->
  x <= remaining_deposits_until_limit b -> deposit_internal b p x d now = Some (b', p', act) ->
  check_deposit_and_oo_limit b' = true.
Proof.
  intros Hok Hl Hx H. apply deposit_spec in H; [|exact Hok].
  destruct H as (Hx0 & M & _ & L & _ & _ & _ & _ & _ & U). destruct M as [M1 _ _ M4 _ _ _ _ _ M10 M11 _ _ _ _ _].
  unfold check_deposit_and_oo_limit, native_deposits. rewrite M4, M10, M11. apply orb_true_iff. right.
  unfold remaining_deposits_until_limit in Hx. destruct (Z.eqb_spec (b_dep_limit b) 0); [lia|].
  apply negb_true_iff, Z.ltb_ge. destruct Hok as [Hd Hb].
  assert (K : b_di b * b_dep b' < b_di b * (b_dep b + 1) + x * fone).
  { destruct (Z_lt_le_dec 0 (t_ix p')) as [h|h].
    - specialize (U h). rewrite <- M1 in U. lia.
    - assert (E : b_dep b' = b_dep b) by lia. rewrite E. pose proof fone_pos. nia. }
  assert (fmul (b_di b) (b_dep b') <= fmul (b_di b) (b_dep b + 1) + x).
  { unfold fmul. replace (b_di b * (b_dep b + 1) / fone + x) with ((b_di b * (b_dep b + 1) + x * fone) / fone).
    - apply Z.div_le_mono; [apply fone_pos|lia].
    - apply Z.div_add. pose proof fone_pos. lia. }
  lia.
Qed.

(** ** token_withdraw *)
Lemma token_withdraw_inv b p amount ab now vault oracle ok b' p' r paid :
  token_withdraw b p amount ab now vault oracle ok = Some (b', p', r, paid) ->
  0 < amount /\
  ((amount = U64_MAX /\ ab = false /\ native b p < 0 /\ b' = b /\ p' = p /\ paid = 0 /\ r = mkWres true 0 0) \/
   (paid = (if (amount =? U64_MAX) && negb ab then to_int (native b p) else amount) /\
    withdraw_with_fee b p (of_int paid) now = Some (b', p', r) /\ paid <= vault /\
    (native b p < of_int paid -> ab = true /\ borrows_reduce_only b = false /\ ok = true /\
       enforce_max_utilization b' (b_max_util b') = true /\ check_net_borrows b' oracle = true) /\
    (of_int paid <= native b p -> enforce_max_utilization b' fone = true))).
Proof.
  unfold token_withdraw. destruct (Z.ltb_spec 0 amount) as [Ha|]; cbn [guard]; [|discriminate]. intros H.
  split; [exact Ha|]. destruct ((amount =? U64_MAX) && negb ab && (native b p <? 0)) eqn:E.
  - apply andb_prop in E as [E E3]. apply andb_prop in E as [E1 E2].
    apply Z.eqb_eq in E1. apply negb_true_iff in E2. apply Z.ltb_lt in E3. injection H as <- <- <- <-. left. repeat split; assumption.
  - right. set (am := if (amount =? U64_MAX) && negb ab then to_int (native b p) else amount) in *.
    destruct (ab || _) eqn:E1; cbn [guard] in H; [|discriminate].
    destruct (Z.ltb_spec (native b p) (of_int am)) as [Hb|Hb]; cbn [negb] in *.
    + rewrite orb_false_r in E1. subst ab.
      destruct (borrows_reduce_only b) eqn:E2; cbn [guard] in H; [discriminate|].
      destruct (withdraw_with_fee b p (of_int am) now) as [[[b1 p1] r1]|] eqn:E3; [|discriminate].
      destruct (Z.leb_spec am vault) as [Hv|]; cbn [guard] in H; [|discriminate].
      destruct (enforce_max_utilization b1 (b_max_util b1) && ok && check_net_borrows b1 oracle) eqn:E4; cbn [guard] in H; [|discriminate].
      apply andb_prop in E4 as [E4 E6]. apply andb_prop in E4 as [E4 E5].
      injection H as <- <- <- <-. split; [reflexivity|]. split; [exact E3|]. split; [exact Hv|]. split; [|lia].
      intros _. repeat split; assumption.
    + destruct (borrows_reduce_only b) eqn:E2; cbn [guard] in H;
      (destruct (withdraw_with_fee b p (of_int am) now) as [[[b1 p1] r1]|] eqn:E3; [|discriminate];
       destruct (Z.leb_spec am vault) as [Hv|]; cbn [guard] in H; [|discriminate];
       destruct (enforce_max_utilization b1 fone) eqn:E4; cbn [guard] in H; [|discriminate];
       injection H as <- <- <- <-; split; [reflexivity|]; split; [exact E3|]; split; [exact Hv|];
       split; [lia|]; intros _; exact E4).
Qed.

Lemma enforce_iff b m : enforce_max_utilization b m = true ->
  native_borrows b <= fmul m (native_deposits b).
Proof. unfold enforce_max_utilization. rewrite negb_true_iff, Z.ltb_ge. auto. Qed.

(** ** reduce-only deposits *)
Lemma token_deposit_inv b p amount ro now b' p' act moved_in :
  token_deposit b p amount ro now = Some (b', p', act, moved_in) ->
  0 < amount /\
  let amt := if ro || deposits_reduce_only b then Z.min (fceil (Z.abs (Z.min (native b p) 0))) (of_int amount) else of_int amount in
  deposit b p amt now = Some (b', p', act) /\ moved_in = to_int amt /\
  (deposits_reduce_only b = true -> ro = false -> amt = of_int amount) /\
  (0 < t_ix p' -> check_deposit_and_oo_limit b' = true).
Proof.
  unfold token_deposit. destruct (Z.ltb_spec 0 amount) as [Ha|]; cbn [guard]; [|discriminate]. cbn zeta. intros H.
  split; [exact Ha|]. set (amt := if ro || deposits_reduce_only b then _ else _) in *.
  destruct (deposits_reduce_only b) eqn:E0.
  - destruct (ro || (amt =? of_int amount)) eqn:E1; cbn [guard] in H; [|discriminate].
    destruct (deposit b p amt now) as [[[b1 p1] a1]|] eqn:E2; [|discriminate].
    destruct (Z.ltb_spec 0 (t_ix p1)) as [Hp|Hp].
    + destruct (check_deposit_and_oo_limit b1) eqn:E3; cbn [guard] in H; [|discriminate]. injection H as <- <- <- <-.
      split; [reflexivity|]. split; [reflexivity|]. split; [|auto]. intros _ ->. cbn [orb] in E1. lia.
    + injection H as <- <- <- <-.
      split; [reflexivity|]. split; [reflexivity|]. split; [|lia]. intros _ ->. cbn [orb] in E1. lia.
  - destruct (deposit b p amt now) as [[[b1 p1] a1]|] eqn:E2; [|discriminate].
    destruct (Z.ltb_spec 0 (t_ix p1)) as [Hp|Hp].
    + destruct (check_deposit_and_oo_limit b1) eqn:E3; cbn [guard] in H; [|discriminate]. injection H as <- <- <- <-.
      split; [reflexivity|]. split; [reflexivity|]. split; [discriminate|auto].
    + injection H as <- <- <- <-.
      split; [reflexivity|]. split; [reflexivity|]. split; [discriminate|lia].
Qed.

Lemma withdraw_zero b p wf d now b' p' r : index_ok b -> t_ix p < 0 -> withdraw_internal b p 0 wf d now = Some (b', p', r) ->
  t_ix p' = t_ix p.
Proof.
  intros Hok Hp H. apply (native_neg b p Hok) in Hp. unfold withdraw_internal in H. cbn [Z.leb guard] in H.
  destruct (Z.ltb_spec (native b p) 0); [|lia]. cbn [negb] in H. unfold add_borrows in H.
  assert (E : (0 + (if wf then fmul (b_lof b) 0 else 0)) = 0) by (rewrite fmul_0_r; destruct wf; reflexivity).
  rewrite E in H. destruct (cdiv 0 (b_bi b)) as [c|] eqn:Ec; [|discriminate]. apply cdiv_inv in Ec as [-> Ec].
  destruct (update_net_borrows _ _ _); [|discriminate]. injection H as _ <- _. cbn [t_ix].
  unfold fdiv. rewrite Z.mul_0_l, Z.quot_0_l by exact Ec. lia.
Qed.
