(** C100: perp market fees, from the positions that pay them to the administrator that withdraws them. *)
From Coq Require Import List ZArith Lia Bool.
From Verif Require Import OrderTree Keys Fixed PerpTypes SettleLimit Interest InterestFacts Bank BankSystem BankSpec BankFacts BankInv BankSolvency PropBank
  Health LiqState TokenLiq SerumCache PerpLiqBase Scaling TokenMove SettleIx SettleFeesIx PropSettleFees FeeSystem.
Import ListNotations.
Open Scope Z_scope.

(** ** specification *)
(** settled and not withdrawn *)
Definition perp_owed (s : fsys) : fx := sum_z (fun m => pf_settled m - of_int (pf_wd m)) (fs_mks s).
(** what positions paid to market [j] in a history *)
Fixpoint paid_to (j : nat) (ops : list fop) : fx :=
  match ops with
  | [] => 0
  | FPay i _ _ x _ :: r => (if Nat.eqb i j then x else 0) + paid_to j r
  | _ :: r => paid_to j r
  end.
(** what happens to the token in a history: a payment of fees withdraws from the payer's balance *)
Fixpoint token_steps (ops : list fop) : list top :=
  match ops with
  | [] => []
  | FToken o :: r => o :: token_steps r
  | FPay _ k a x now :: r => TBank k a (BWithdraw x false false now) false :: token_steps r
  | _ :: r => token_steps r
  end.
Definition fresh (s : fsys) : Prop := new_token (fs_tok s) /\ fs_mks s = [] /\ fs_vault s = 0.

(** ** one withdrawal *)
Theorem C100_withdraw : forall m vault m' amount, admin_perp_withdraw_fees m vault = Some (m', amount) -> 0 <= vault ->
  0 <= amount <= vault /\ pf_settled m' = pf_settled m /\ pf_wd m' = pf_wd m + amount /\ of_int (pf_wd m') <= pf_settled m /\
  (amount < vault -> pf_settled m < of_int (pf_wd m' + 1) /\ forall v, 0 <= v -> admin_perp_withdraw_fees m' v = Some (m', 0)).
Proof.
  intros m vault m' amount H V. unfold admin_perp_withdraw_fees in H. destruct (Z.leb_spec 0 (to_int (pf_settled m) - pf_wd m)) as [F|]; cbn [guard] in H; [|discriminate].
  apply some_inj in H. apply pair_equal_spec in H as [<- <-]. cbn [pf_settled pf_wd]. unfold to_int, of_int in *. pose proof fone_pos as FP.
  pose proof (Z.mul_div_le (pf_settled m) fone FP) as D1. pose proof (Z.mul_succ_div_gt (pf_settled m) fone FP) as D2. set (q := pf_settled m / fone) in *.
  split; [lia|]. split; [reflexivity|]. split; [reflexivity|]. split; [nia|]. intros L. split; [assert (E : pf_wd m + Z.min (q - pf_wd m) vault = q) by lia; rewrite E; lia|].
  intros v Hv. unfold admin_perp_withdraw_fees. cbn [pf_settled pf_wd]. unfold to_int. fold q. assert (E : pf_wd m + Z.min (q - pf_wd m) vault = q) by lia. rewrite E, Z.sub_diag.
  cbn [Z.leb Z.compare guard]. rewrite Z.min_l by lia. rewrite Z.add_0_r. reflexivity.
Qed.
Print Assumptions C100_withdraw.

(** ** histories *)
Definition good_mk (m : pfees) : Prop := 0 <= pf_wd m /\ of_int (pf_wd m) <= pf_settled m.
Lemma nth_set {A} (l : list A) j x i : nth_error (set_nth l j x) i = if Nat.eqb i j then match nth_error l j with Some _ => Some x | None => None end else nth_error l i.
Proof.
  revert j i. induction l as [|y l IH]; intros [|j] [|i]; cbn [set_nth nth_error Nat.eqb]; try reflexivity.
  - destruct (Nat.eqb i j); reflexivity.
  - apply IH.
Qed.
Lemma sum_z_set {A} (f : A -> Z) l j x m : nth_error l j = Some m -> sum_z f (set_nth l j x) = sum_z f l - f m + f x.
Proof.
  revert j. induction l as [|y l IH]; intros [|j] H; cbn [nth_error set_nth] in *; try discriminate.
  - apply some_inj in H. subst. cbn [sum_z fold_right]. lia.
  - cbn [sum_z fold_right]. fold (sum_z f (set_nth l j x)) (sum_z f l). rewrite (IH _ H). lia.
Qed.
Lemma sum_z_app {A} (f : A -> Z) l x : sum_z f (l ++ [x]) = sum_z f l + f x.
Proof. induction l as [|y l IH]; cbn [app sum_z fold_right]; [lia|]. fold (sum_z f (l ++ [x])) (sum_z f l). lia. Qed.

Lemma fpay_token s j k a x now s' : fstep s (FPay j k a x now) = Some s' ->
  tstep (fs_tok s) (TBank k a (BWithdraw x false false now) false) = Some (fs_tok s') /\ 0 < x /\ fs_vault s' = fs_vault s /\ ts_cash (fs_tok s') = ts_cash (fs_tok s) - x /\
  exists m, nth_error (fs_mks s) j = Some m /\ fs_mks s' = set_nth (fs_mks s) j (mkPF (pf_settled m + x) (pf_wd m)).
Proof.
  cbn [fstep tstep]. destruct (nth_error (fs_mks s) j) as [m|] eqn:M; [|discriminate]. destruct (Z.ltb_spec 0 x); cbn [guard]; [|discriminate].
  destruct (nth_error (ts_banks (fs_tok s)) k) as [b|]; [|discriminate]. destruct (pos_get (ts_pos (fs_tok s)) a) as [p|]; [|discriminate].
  cbn [bank_op]. destruct (withdraw_without_fee b p x now) as [[[b' p'] act]|]; [|discriminate]. intros E. apply some_inj in E. subst s'. cbn [fs_tok fs_mks fs_vault ts_cash put_back].
  split; [f_equal; f_equal; lia|]. split; [assumption|]. split; [reflexivity|]. split; [reflexivity|]. exists m. auto.
Qed.
(** invariant of histories *)
Record fees_ok (s : fsys) : Prop := { fk_mks : forall j m, nth_error (fs_mks s) j = Some m -> good_mk m; fk_vault : fs_vault s = ts_cash (fs_tok s) + perp_owed s }.
Lemma fees_ok_step s o s' : fees_ok s -> fstep s o = Some s' -> fees_ok s' /\
  (forall j, match nth_error (fs_mks s') j with Some m' => pf_settled m' = match nth_error (fs_mks s) j with Some m => pf_settled m | None => 0 end + paid_to j [o] | None => paid_to j [o] = 0 /\ nth_error (fs_mks s) j = None end).
Proof.
  intros [G V] H. pose proof fone_pos as FP. destruct o as [o| |j k a x now|j vault].
  - cbn [fstep] in H. destruct (tstep (fs_tok s) o) as [t|]; [|discriminate]. apply some_inj in H. subst s'. split; [constructor; cbn [fs_mks fs_tok fs_vault]; [exact G|unfold perp_owed in *; cbn [fs_mks]; lia]|].
    intros j. cbn [fs_mks paid_to]. destruct (nth_error (fs_mks s) j); [lia|auto].
  - cbn [fstep] in H. apply some_inj in H. subst s'. split; [constructor; cbn [fs_mks fs_tok fs_vault]|].
    + intros j m E. destruct (Nat.lt_ge_cases j (length (fs_mks s))) as [L|L]; [rewrite nth_error_app1 in E by exact L; exact (G _ _ E)|]. rewrite nth_error_app2 in E by exact L.
      destruct (j - length (fs_mks s))%nat as [|n]; cbn [nth_error] in E; [|destruct n; discriminate]. apply some_inj in E. subst m. unfold good_mk, pf_new, of_int. cbn [pf_wd pf_settled]. lia.
    + unfold perp_owed in *. cbn [fs_mks]. rewrite sum_z_app. unfold pf_new. unfold of_int in *. cbn [pf_wd pf_settled]. lia.
    + intros j. cbn [fs_mks paid_to]. destruct (Nat.lt_ge_cases j (length (fs_mks s))) as [L|L].
      * rewrite nth_error_app1 by exact L. destruct (nth_error (fs_mks s) j) eqn:E; [lia|]. auto.
      * rewrite nth_error_app2 by exact L. apply nth_error_None in L as L'. rewrite L'. destruct (j - length (fs_mks s))%nat as [|n]; cbn [nth_error]; [reflexivity|destruct n; cbn [nth_error]; auto].
  - apply fpay_token in H as (_ & X & HV & HC & m & M & HM). pose proof (G _ _ M) as [G1 G2]. split; [constructor|].
    + intros i m' E. rewrite HM, nth_set, M in E. destruct (Nat.eqb i j); [apply some_inj in E; subst m'; unfold good_mk; cbn [pf_wd pf_settled]; lia|exact (G _ _ E)].
    + unfold perp_owed in *. rewrite HV, HC, HM, (sum_z_set _ _ _ _ _ M). cbn [pf_settled pf_wd]. lia.
    + intros i. rewrite HM, nth_set, M. cbn [paid_to]. rewrite (Nat.eqb_sym j i). destruct (Nat.eqb_spec i j) as [->|N]; [rewrite M; cbn [pf_settled]; lia|]. destruct (nth_error (fs_mks s) i); [lia|auto].
  - cbn [fstep] in H. destruct (nth_error (fs_mks s) j) as [m|] eqn:M; [|discriminate]. destruct (Z.leb_spec 0 vault) as [Vl|]; cbn [guard] in H; [|discriminate].
    destruct (admin_perp_withdraw_fees m vault) as [[m' amount]|] eqn:A; [|discriminate]. apply some_inj in H. subst s'. destruct (C100_withdraw _ _ _ _ A Vl) as (A1 & A2 & A3 & A4 & _). pose proof (G _ _ M) as [G1 G2]. split; [constructor; cbn [fs_mks fs_tok fs_vault]|].
    + intros i mi E. rewrite nth_set, M in E. destruct (Nat.eqb i j); [apply some_inj in E; subst mi; unfold good_mk; rewrite A2; split; [lia|exact A4]|exact (G _ _ E)].
    + unfold perp_owed in *. cbn [fs_mks]. rewrite (sum_z_set _ _ _ _ _ M), A2, A3. unfold of_int in *. lia.
    + intros i. cbn [fs_mks paid_to]. rewrite nth_set, M. destruct (Nat.eqb_spec i j) as [->|N]; [rewrite M, A2; lia|]. destruct (nth_error (fs_mks s) i); [lia|auto].
Qed.
Lemma paid_cons j o r : paid_to j (o :: r) = paid_to j [o] + paid_to j r.
Proof. destruct o; cbn [paid_to]; lia. Qed.
Lemma fees_ok_run ops : forall s s', fees_ok s -> frun s ops = Some s' -> fees_ok s' /\
  (forall j, match nth_error (fs_mks s') j with Some m' => pf_settled m' = match nth_error (fs_mks s) j with Some m => pf_settled m | None => 0 end + paid_to j ops | None => paid_to j ops = 0 /\ nth_error (fs_mks s) j = None end).
Proof.
  induction ops as [|o ops IH]; intros s s' G H; cbn [frun] in H.
  - apply some_inj in H. subst s'. split; [exact G|]. intros j. cbn [paid_to]. destruct (nth_error (fs_mks s) j); [lia|auto].
  - destruct (fstep s o) as [s1|] eqn:E; [|discriminate]. destruct (fees_ok_step _ _ _ G E) as [G1 S1]. destruct (IH _ _ G1 H) as [G2 S2]. split; [exact G2|].
    intros j. rewrite paid_cons. specialize (S1 j). specialize (S2 j). destruct (nth_error (fs_mks s') j); destruct (nth_error (fs_mks s1) j); destruct (nth_error (fs_mks s) j); intuition (try discriminate; lia).
Qed.

(** In every reachable state, each market has settled exactly what positions paid to it, and has had at most that withdrawn; the
    vaults hold what the bank counts as paid in, plus the fees not yet withdrawn; and a withdrawal is always possible: of all whole
    tokens not yet withdrawn, or of what the vault holds. *)
Theorem C100_history : forall s0 ops s, fresh s0 -> frun s0 ops = Some s ->
  fs_vault s = ts_cash (fs_tok s) + perp_owed s /\ 0 <= perp_owed s /\
  forall j m, nth_error (fs_mks s) j = Some m ->
    pf_settled m = paid_to j ops /\ 0 <= of_int (pf_wd m) <= pf_settled m /\
    forall vault, 0 <= vault -> admin_perp_withdraw_fees m vault = Some (mkPF (pf_settled m) (pf_wd m + Z.min (to_int (pf_settled m) - pf_wd m) vault), Z.min (to_int (pf_settled m) - pf_wd m) vault).
Proof.
  intros s0 ops s (N & M0 & V0) H. pose proof fone_pos as FP.
  assert (G0 : fees_ok s0).
  { constructor; [rewrite M0; intros [|j] m E; discriminate|]. destruct N as (_ & C & _). unfold perp_owed. rewrite M0, C, V0. reflexivity. }
  destruct (fees_ok_run _ _ _ G0 H) as [[G V] S]. split; [exact V|].
  assert (NN : forall l, (forall j m, nth_error l j = Some m -> good_mk m) -> 0 <= sum_z (fun m => pf_settled m - of_int (pf_wd m)) l).
  { induction l as [|m l IH]; intros Q; cbn [sum_z fold_right]; [lia|]. pose proof (Q 0%nat m eq_refl) as [_ Q0]. specialize (IH (fun j => Q (Datatypes.S j))). unfold sum_z in IH. lia. }
  split; [apply NN, G|]. intros j m E. specialize (S j). rewrite E, M0 in S. pose proof (G _ _ E) as [G1 G2]. split; [destruct j; cbn [nth_error] in S; lia|]. split; [unfold of_int in *; nia|].
  intros v Hv. unfold admin_perp_withdraw_fees. assert (pf_wd m <= to_int (pf_settled m)) by (unfold to_int, of_int in *; apply Z.div_le_lower_bound; lia).
  destruct (Z.leb_spec 0 (to_int (pf_settled m) - pf_wd m)); [reflexivity|lia].
Qed.
Print Assumptions C100_history.

Lemma frun_token ops : forall s s', frun s ops = Some s' -> trun (fs_tok s) (token_steps ops) = Some (fs_tok s').
Proof.
  induction ops as [|o ops IH]; intros s s' H; cbn [frun token_steps trun] in *; [apply some_inj in H; subst; reflexivity|].
  destruct (fstep s o) as [s1|] eqn:E; [|discriminate]. destruct o as [o| |j k a x now|j vault].
  - cbn [fstep] in E. cbn [trun]. destruct (tstep (fs_tok s) o) as [t|]; [|discriminate]. apply some_inj in E. subst s1. exact (IH _ _ H).
  - cbn [fstep] in E. apply some_inj in E. subst s1. exact (IH _ _ H).
  - apply fpay_token in E as (E & _). cbn [trun]. rewrite E. exact (IH _ _ H).
  - cbn [fstep] in E. destruct (nth_error (fs_mks s) j) as [m|]; [|discriminate]. destruct (0 <=? vault); cbn [guard] in E; [|discriminate].
    destruct (admin_perp_withdraw_fees m vault) as [[m' amount]|]; [|discriminate]. apply some_inj in E. subst s1. exact (IH _ _ H).
Qed.
(** The vault of a token with one bank covers, but for the rounding of C53, everything it is owed out: the claims of the depositors, the
    dust and fees of the bank, and the fees of all perp markets that settle in it. *)
Theorem C100_covered : forall s0 ops s, fresh s0 -> frun s0 ops = Some s ->
  losses_covered (fs_tok s0) (token_steps ops) -> (forall o k, In (FToken o) ops -> o <> TAddBank k) ->
  exists b, ts_banks (fs_tok s) = [b] /\
    claims (b_di b) (b_bi b) (fs_tok s) + (b_dust b + b_fees b - of_int (b_fw b) + perp_owed s) * fone <= fs_vault s * fone + roundings (fs_tok s0) (token_steps ops).
Proof.
  intros s0 ops s F H L NA. destruct (C100_history _ _ _ F H) as (V & _). destruct F as (N & _).
  assert (NA' : forall o k, In o (token_steps ops) -> o <> TAddBank k).
  { clear - NA. induction ops as [|o ops IH]; intros t k I; [destruct I|]. assert (IH' := IH (fun o k i => NA o k (or_intror i))).
    destruct o; cbn [token_steps] in I; try exact (IH' _ _ I); destruct I as [<-|I]; try exact (IH' _ _ I); [apply NA; left; reflexivity|discriminate]. }
  destruct (C53_solvent _ _ _ N L NA' (frun_token _ _ _ H)) as (b & B & S). exists b. split; [exact B|]. unfold shortfall in S. rewrite V. unfold of_int in *. lia.
Qed.
Print Assumptions C100_covered.

(** The instruction perp_settle_fees (C97) is a step of these histories. *)
Theorem C100_step : forall e b a fees mx o s j k who m, perp_settle_fees e b a fees mx = Some o -> 0 <= mx -> 0 < fo_amount o ->
  nth_error (ts_banks (fs_tok s)) k = Some b -> pos_get (ts_pos (fs_tok s)) who = Some (sa_tok a) -> nth_error (fs_mks s) j = Some m -> pf_settled m = fees ->
  exists s', fstep s (FPay j k who (fo_amount o) (xe_now e)) = Some s' /\
    fs_mks s' = set_nth (fs_mks s) j (mkPF (fo_fees o) (pf_wd m)) /\ ts_banks (fs_tok s') = set_nth (ts_banks (fs_tok s)) k (fo_bank o) /\
    ts_pos (fs_tok s') = pos_set (ts_pos (fs_tok s)) who (sa_tok (fo_acct o)) /\ fs_vault s' = fs_vault s.
Proof.
  intros e b a fees mx o s j k who m H MX P B T M F. apply fees_inv in H as (_ & p & l & _ & _ & PD). destruct (PD ltac:(lia)) as [_ (act & W) _ Ef _].
  cbn [fstep]. rewrite M, B, T, W. destruct (Z.ltb_spec 0 (fo_amount o)) as [_|]; [|lia]. cbn [guard]. eexists. split; [reflexivity|]. cbn [fs_mks fs_tok fs_vault ts_banks ts_pos].
  rewrite Ef, F. do 3 (split; [reflexivity|]). reflexivity.
Qed.
Print Assumptions C100_step.

(** ** example: deposits, two markets, payments of 30.5 and 40.75 tokens, three withdrawals *)
Definition exf : fsys := mkFS ex_state [] 0.
Definition exf_ops : list fop :=
  [FToken (TOpen 1); FToken (TBank 0 1 (BDeposit (of_int 1000) false 10) false); FMarket; FMarket; FToken (TOpen 2);
   FToken (TBank 0 2 (BDeposit (of_int 100) false 10) false);
   FPay 0 0 2 (of_int 30 + fone / 2) 20; FPay 1 0 2 (of_int 40 + 3 * (fone / 4)) 30; FWithdraw 0 1100; FToken (TUpdateIndex 3000);
   FPay 0 0 1 (fone / 2) 3100; FWithdraw 1 25; FWithdraw 0 1000].
Example C100_ex : exists s b m0 m1, fresh exf /\ frun exf exf_ops = Some s /\ losses_covered (fs_tok exf) (token_steps exf_ops) /\
  fs_mks s = [m0; m1] /\ (pf_settled m0, pf_wd m0) = (of_int 31, 31) /\ (pf_settled m1, pf_wd m1) = (of_int 40 + 3 * (fone / 4), 25) /\
  fs_vault s = of_int (1100 - 31 - 25) /\ ts_banks (fs_tok s) = [b] /\ 0 < perp_owed s /\ roundings (fs_tok exf) (token_steps exf_ops) < fone * fone.
Proof.
  eexists _, _, _, _. split; [split; [split; [reflexivity|]; split; [reflexivity|]; apply ex_new|split; reflexivity]|].
  split; [vm_compute; reflexivity|]. split; [vm_compute; intuition|]. do 4 (split; [vm_compute; reflexivity|]). split; [reflexivity|]. split; vm_compute; reflexivity.
Qed.
