(** Lemmas about transactions (TxRules.v). *)
From Coq Require Import List ZArith Lia Bool Arith.
From Verif Require Import Keys Fixed PerpTypes Interest InterestFacts Bank BankSystem LiqState TxRules.
Import ListNotations.
Open Scope Z_scope.

Lemma guard_some b u : guard b = Some u -> b = true.
Proof. unfold guard; destruct b; [reflexivity|discriminate]. Qed.

Ltac inv_opt H :=
  repeat match type of H with
  | match guard ?b with _ => _ end = Some _ =>
      let G := fresh "G" in destruct (guard b) eqn:G; [apply guard_some in G|discriminate H]
  | match ?x with Some _ => _ | None => None end = Some _ =>
      let G := fresh "O" in destruct x eqn:G; [|discriminate H]
  | (let (_, _) := ?x in _) = Some _ => let G := fresh "P" in destruct x eqn:G
  end.

(** ** the banks' loan fields *)
Definition reset (b : fbank) : Prop := fb_approved b = 0 /\ fb_initial b = U64_MAX.
Definition closed (w : world) : Prop := forall k b, w_banks w k = Some b -> reset b.
(** only banks whose vault is listed are open *)
Definition open_only (w : world) (vaults : list Z) : Prop :=
  forall k b, w_banks w k = Some b -> reset b \/ In (fb_vault b) vaults.
(** the banks of both worlds have the same identity *)
Definition bank_ids (w w' : world) : Prop :=
  forall k, match w_banks w k, w_banks w' k with
            | Some b, Some b' => fb_group b' = fb_group b /\ fb_vault b' = fb_vault b /\ fb_mint b' = fb_mint b /\ fb_index b' = fb_index b
            | None, None => True
            | _, _ => False
            end.
Lemma bank_ids_refl w : bank_ids w w.
Proof. intros k. destruct (w_banks w k); auto. Qed.
Lemma bank_ids_trans w1 w2 w3 : bank_ids w1 w2 -> bank_ids w2 w3 -> bank_ids w1 w3.
Proof.
  intros A B k. specialize (A k). specialize (B k).
  destruct (w_banks w1 k), (w_banks w2 k), (w_banks w3 k); try contradiction; auto.
  destruct A as (a1 & a2 & a3 & a4), B as (b1 & b2 & b3 & b4). repeat split; congruence.
Qed.
Lemma bank_ids_own w w' : bank_ids w w' -> own_vaults w -> own_vaults w'.
Proof.
  intros A O k1 k2 b1 b2 H1 H2 E.
  pose proof (A k1) as A1. pose proof (A k2) as A2. rewrite H1 in A1. rewrite H2 in A2.
  destruct (w_banks w k1) eqn:E1; [|contradiction]. destruct (w_banks w k2) eqn:E2; [|contradiction].
  apply (O k1 k2 _ _ E1 E2). destruct A1 as (_ & a & _), A2 as (_ & b & _). congruence.
Qed.
Lemma bank_ids_put w k b b' :
  w_banks w k = Some b -> fb_group b' = fb_group b -> fb_vault b' = fb_vault b -> fb_mint b' = fb_mint b ->
  fb_index b' = fb_index b -> bank_ids w (put_bank w k b').
Proof.
  intros H. intros. intros k'. unfold put_bank, put; cbn [w_banks].
  destruct (k' =? k) eqn:E.
  - apply Z.eqb_eq in E. subst. rewrite H. auto.
  - destruct (w_banks w k'); auto.
Qed.
Lemma bank_ids_eq w w' : w_banks w' = w_banks w -> bank_ids w w'.
Proof. intros E k. rewrite E. destruct (w_banks w k); auto. Qed.

Lemma transfer_frame w f t n w' : transfer w f t n = Some w' ->
  w_banks w' = w_banks w /\ w_accts w' = w_accts w /\ w_now w' = w_now w /\ w_groups w' = w_groups w.
Proof. unfold transfer. intros H. inv_opt H. apply some_inj in H. subst. auto. Qed.

(** ** begin *)
Lemma begin_loans_ids group L : forall w seen w', begin_loans w group seen L = Some w' ->
  bank_ids w w' /\ w_accts w' = w_accts w /\ w_now w' = w_now w /\ w_groups w' = w_groups w.
Proof.
  induction L as [|[[[bk vk] tk] am] L IH]; cbn [begin_loans]; intros w seen w' H.
  - apply some_inj in H; subst. split; [apply bank_ids_refl|auto].
  - inv_opt H.
    assert (F : bank_ids w w0 /\ w_accts w0 = w_accts w /\ w_now w0 = w_now w /\ w_groups w0 = w_groups w).
    { assert (B : bank_ids w (put_bank w bk (set_flash f am (ta_amount t0)))) by (apply (bank_ids_put w bk f); auto).
      destruct (0 <? am).
      - inv_opt O2. apply transfer_frame in O2. destruct O2 as (a & b & c & d).
        split; [|split; [|split]]; try assumption.
        apply (bank_ids_trans _ _ _ B), bank_ids_eq, a.
      - apply some_inj in O2; subst. auto. }
    destruct F as (F1 & F2 & F3 & F4). apply IH in H. destruct H as (H1 & H2 & H3 & H4).
    split; [|split; [|split]]; try congruence. apply (bank_ids_trans _ _ _ F1 H1).
Qed.
Lemma begin_loans_open group L : forall w seen w' vs, begin_loans w group seen L = Some w' ->
  open_only w vs -> (forall x, In x (map (fun t => snd (fst (fst t))) L) -> In x vs) -> open_only w' vs.
Proof.
  induction L as [|[[[bk vk] tk] am] L IH]; cbn [begin_loans]; intros w seen w' vs H C I.
  - apply some_inj in H; subst. auto.
  - inv_opt H. apply (IH _ _ _ vs) in H; auto.
    + assert (B : open_only (put_bank w bk (set_flash f am (ta_amount t0))) vs).
      { intros k b Hk. unfold put_bank, put in Hk; cbn [w_banks] in Hk. destruct (k =? bk).
        - apply some_inj in Hk; subst. right. apply andb_prop in G0 as [_ G0]. apply Z.eqb_eq in G0.
          unfold set_flash; cbn [fb_vault]. rewrite G0. apply I. left. reflexivity.
        - apply (C k b Hk). }
      destruct (0 <? am).
      * inv_opt O2. apply transfer_frame in O2. destruct O2 as (a & _). intros k b Hk. rewrite a in Hk. apply (B k b Hk).
      * apply some_inj in O2; subst. auto.
    + intros x Hx. apply I. right. exact Hx.
Qed.
(** loans are for different tokens, and not negative *)
Definition uniq (w : world) : Prop := forall k1 k2 b1 b2,
  w_banks w k1 = Some b1 -> w_banks w k2 = Some b2 -> ~ reset b1 -> ~ reset b2 -> fb_index b1 = fb_index b2 -> k1 = k2.
Definition nonneg_loans (w : world) : Prop := forall k b, w_banks w k = Some b -> 0 <= fb_approved b.
Lemma closed_nonneg w : closed w -> nonneg_loans w.
Proof. intros C k b H. destruct (C k b H) as (-> & _). lia. Qed.
Lemma closed_uniq w : closed w -> uniq w.
Proof. intros C k1 k2 b1 b2 H1 H2 N. destruct (N (C k1 b1 H1)). Qed.
Lemma begin_loans_uniq group L : forall w seen w', begin_loans w group seen L = Some w' ->
  nonneg_loans w -> uniq w -> (forall k b, w_banks w k = Some b -> ~ reset b -> In (fb_index b) seen) ->
  uniq w' /\ nonneg_loans w'.
Proof.
  induction L as [|[[[bk vk] tk] am] L IH]; cbn [begin_loans]; intros w seen w' H N U S.
  - apply some_inj in H; subst. auto.
  - inv_opt H. refine (IH _ _ _ H _ _ _); clear IH H.
    all: assert (F : w_banks w0 = w_banks (put_bank w bk (set_flash f am (ta_amount t0)))) by
      (destruct (0 <? am); [inv_opt O2; apply transfer_frame in O2; apply O2|apply some_inj in O2; subst; reflexivity]).
    all: apply andb_prop in G as [Ga Gb]; apply Z.leb_le in Ga.
    all: assert (R : reset f) by (apply andb_prop in G3 as [R1 R2]; apply Z.eqb_eq in R1, R2; split; assumption).
    all: assert (NI : ~ In (fb_index f) seen) by (intros I; apply negb_true_iff in G1; rewrite <- not_true_iff_false in G1;
       apply G1, existsb_exists; exists (fb_index f); split; [exact I|apply Z.eqb_refl]).
    + intros k b Hk. rewrite F in Hk. unfold put_bank, put in Hk; cbn [w_banks] in Hk. destruct (k =? bk).
      * apply some_inj in Hk; subst. exact Ga.
      * apply (N k b Hk).
    + intros k1 k2 b1 b2 H1 H2 R1 R2 E. rewrite F in H1, H2. unfold put_bank, put in H1, H2; cbn [w_banks] in H1, H2.
      destruct (k1 =? bk) eqn:E1, (k2 =? bk) eqn:E2.
      * apply Z.eqb_eq in E1, E2. congruence.
      * apply some_inj in H1. subst b1. destruct NI. cbn [set_flash fb_index] in E. rewrite E. apply (S k2 b2 H2 R2).
      * apply some_inj in H2. subst b2. destruct NI. cbn [set_flash fb_index] in E. rewrite <- E. apply (S k1 b1 H1 R1).
      * apply (U k1 k2 b1 b2 H1 H2 R1 R2 E).
    + intros k b Hk R1. rewrite F in Hk. unfold put_bank, put in Hk; cbn [w_banks] in Hk. destruct (k =? bk).
      * apply some_inj in Hk; subst. left. reflexivity.
      * right. apply (S k b Hk R1).
Qed.
Lemma combine_vaults (banks vaults tokens : list Z) (am : list Z) x :
  In x (map (fun t => snd (fst (fst t))) (combine (combine (combine banks vaults) tokens) am)) -> In x vaults.
Proof.
  intros H. apply in_map_iff in H as ((((a & b) & c) & d) & E & I). cbn in E. subst.
  apply in_combine_l in I. apply in_combine_l in I. apply in_combine_r in I. exact I.
Qed.

(** what the search for the end instruction guarantees *)
Lemma scan_flash_spec d acct n trail rest : scan_flash d acct n trail rest = true ->
  exists j i, nth_error rest j = Some i /\ i_prog i = MANGO /\ i_name i = FlashLoanEndV2 /\
    nth_error (i_args i) 0 = Some (Z.of_nat n) /\ nth_error (i_accts i) 0 = Some acct /\
    last_n (length trail) (i_accts i) = Some trail /\
    forall k x, (k < j)%nat -> nth_error rest k = Some x ->
      i_prog x <> MANGO /\ ~ In MANGO (i_accts x) /\ (d = true -> In (i_prog x) delegate_programs).
Proof.
  induction rest as [|i r IH]; cbn [scan_flash]; intros H; [discriminate|].
  destruct (d && negb (existsb (Z.eqb (i_prog i)) delegate_programs)) eqn:D; [discriminate|].
  assert (Dp : d = true -> In (i_prog i) delegate_programs).
  { intros ->. cbn [andb] in D. apply negb_false_iff in D. apply existsb_exists in D as (x & I & E).
    apply Z.eqb_eq in E. subst. exact I. }
  destruct (i_prog i =? MANGO) eqn:P.
  - apply Z.eqb_eq in P. destruct (i_name i) eqn:N; try discriminate.
    destruct (nth_error (i_args i) 0) eqn:A0; [|discriminate].
    destruct (nth_error (i_accts i) 0) eqn:A1; [|discriminate].
    destruct (last_n (length trail) (i_accts i)) eqn:A2; [|discriminate].
    apply andb_prop in H as [H H3]. apply andb_prop in H as [H1 H2]. apply Z.eqb_eq in H1, H2. subst.
    exists 0%nat, i. cbn [nth_error]. do 5 (split; [auto|]). split.
    + rewrite A2. f_equal. revert l H3 A2. clear. intros l H _. revert l H.
      induction trail as [|x t IH]; intros [|y l] H; cbn [list_eqb] in H; try discriminate; auto.
      apply andb_prop in H as [E H]. apply Z.eqb_eq in E. subst. f_equal. apply IH, H.
    + intros k x Hk. lia.
  - apply Z.eqb_neq in P. destruct (existsb (Z.eqb MANGO) (i_accts i)) eqn:X; [discriminate|].
    destruct (IH H) as (j & i' & H1 & H2 & H3 & H4 & H5 & H6 & H7).
    exists (S j), i'. cbn [nth_error]. repeat (split; [assumption|]).
    intros [|k] x Hk Hx.
    + apply some_inj in Hx; subst. split; [exact P|split; [|exact Dp]].
      intros I. rewrite <- not_true_iff_false in X. apply X. apply existsb_exists. exists MANGO. split; [exact I|reflexivity].
    + apply (H7 k x); [lia|exact Hx].
Qed.

(** ** end *)
Lemma find_index_spec k l i : find_index k l = Some i -> nth_error l i = Some k.
Proof.
  revert i; induction l as [|x r IH]; cbn [find_index]; intros i H; [discriminate|].
  destruct (x =? k) eqn:E.
  - apply some_inj in H; subst. apply Z.eqb_eq in E; subst. reflexivity.
  - destruct (find_index k r); [|discriminate]. apply some_inj in H; subst. cbn. apply IH; reflexivity.
Qed.
Lemma end_scan_frame group vaults tokens ais : forall w a rate w' a' rate' L,
  end_scan w a group vaults tokens rate ais = Some (w', a', rate', L) ->
  w_banks w' = w_banks w /\ w_accts w' = w_accts w /\ w_now w' = w_now w /\ w_groups w' = w_groups w /\
  (forall c, In c L -> exists b, w_banks w (c_bank c) = Some b /\ nth_error vaults (c_vault c) = Some (fb_vault b) /\
     c_index c = fb_index b /\ fb_initial b <> U64_MAX /\ In (c_bank c) ais).
Proof.
  induction ais as [|k ais IH]; cbn [end_scan]; intros w a rate w' a' rate' L H.
  - apply some_inj in H. injection H as <- <- <- <-. repeat (split; [reflexivity|]). intros c [].
  - destruct (w_banks w k) as [b|] eqn:B.
    2:{ apply some_inj in H. injection H as <- <- <- <-. repeat (split; [reflexivity|]). intros c []. }
    inv_opt H. destruct (find_index (fb_vault b) vaults) as [vi|] eqn:V.
    2:{ apply IH in H. destruct H as (h1 & h2 & h3 & h4 & h5). repeat (split; [assumption|]).
        intros c Hc. destruct (h5 c Hc) as (b' & r1 & r2 & r3 & r4 & r5). exists b'. repeat (split; [assumption|]). right; exact r5. }
    inv_opt H. apply some_inj in H. injection H as <- <- <- <-.
    assert (F : w_banks w0 = w_banks w /\ w_accts w0 = w_accts w /\ w_now w0 = w_now w /\ w_groups w0 = w_groups w).
    { destruct (0 <? ta_amount t - fb_initial b); [apply transfer_frame in O2; exact O2|apply some_inj in O2; subst; auto]. }
    destruct F as (f1 & f2 & f3 & f4). apply IH in O3. destruct O3 as (h1 & h2 & h3 & h4 & h5).
    repeat (split; [congruence|]). intros c [<-|Hc].
    + cbn [c_bank c_vault c_index]. exists b. split; [exact B|]. split; [apply find_index_spec, V|]. split; [reflexivity|].
      split; [|left; reflexivity]. apply negb_true_iff, Z.eqb_neq in G1. exact G1.
    + destruct (h5 c Hc) as (b' & r1 & r2 & r3 & r4 & r5). rewrite f1 in r1. exists b'. repeat (split; [assumption|]). right; exact r5.
Qed.
Lemma apply_change_frame w a ty rate c price w' a' act :
  apply_change w a ty rate c price = Some (w', a', act) ->
  exists b b', w_banks w (c_bank c) = Some b /\ w' = put_bank w (c_bank c) b' /\
    fb_group b' = fb_group b /\ fb_vault b' = fb_vault b /\ fb_mint b' = fb_mint b /\ fb_index b' = fb_index b /\
    reset b' /\ m_group a' = m_group a /\ m_region a' = m_region a /\ m_region_health a' = m_region_health a /\
    exists p p2, pos_get (m_toks a) (c_index c) = Some p /\ m_toks a' = pos_set (m_toks a) (c_index c) p2.
Proof.
  unfold apply_change. intros H. inv_opt H. apply some_inj in H. injection H as <- <- <-.
  exists f, (set_flash (set_fbank f b0) 0 U64_MAX). repeat (split; [reflexivity|]).
  split; [split; reflexivity|]. repeat (split; [reflexivity|]). exists t, t0. split; reflexivity.
Qed.
Lemma apply_changes_frame ty rate L : forall w a w' a' D,
  apply_changes w a ty rate L = Some (w', a', D) ->
  bank_ids w w' /\ w_accts w' = w_accts w /\ w_now w' = w_now w /\ w_groups w' = w_groups w /\ w_tokens w' = w_tokens w /\
  m_group a' = m_group a /\ m_region a' = m_region a /\ m_region_health a' = m_region_health a /\
  (forall k, w_banks w' k = w_banks w k \/ exists b', w_banks w' k = Some b' /\ reset b') /\
  (forall c, In c (map fst L) -> exists b', w_banks w' (c_bank c) = Some b' /\ reset b').
Proof.
  induction L as [|[c price] L IH]; cbn [apply_changes]; intros w a w' a' D H.
  - apply some_inj in H. injection H as <- <- <-. split; [apply bank_ids_refl|]. repeat (split; [reflexivity|]).
    split; [left; reflexivity|]. intros c [].
  - inv_opt H. apply some_inj in H. injection H as <- <- <-.
    apply apply_change_frame in O. destruct O as (bb & b' & e1 & e2 & e3 & e4 & e5 & e6 & e7 & e8 & e9 & e10 & _).
    apply IH in O0. destruct O0 as (h1 & h2 & h3 & h4 & h5 & h6 & h7 & h8 & h9 & h10).
    assert (B : bank_ids w w0) by (subst w0; apply (bank_ids_put w (c_bank c) bb b'); auto).
    split; [apply (bank_ids_trans _ _ _ B h1)|].
    subst w0. cbn [w_accts w_now w_groups w_tokens put_bank] in *. repeat (split; [congruence|]).
    assert (K : forall k, w_banks w1 k = w_banks w k \/ exists b', w_banks w1 k = Some b' /\ reset b').
    { intros k. destruct (h9 k) as [E|E]; [|right; exact E]. unfold put_bank, put in E; cbn [w_banks] in E.
      destruct (k =? c_bank c); [right; exists b'; auto|left; exact E]. }
    split; [exact K|]. intros c0 [<-|I]; [|apply h10, I]. cbn [fst].
    destruct (h9 (c_bank c)) as [E|E]; [|exact E]. unfold put_bank, put in E; cbn [w_banks] in E.
    rewrite Z.eqb_refl in E. exists b'. auto.
Qed.

Lemma prices_length e w L : forall ps, prices e w L = Some ps -> length ps = length L.
Proof.
  induction L as [|c L IH]; cbn [prices]; intros ps H; [apply some_inj in H; subst; reflexivity|].
  inv_opt H. apply some_inj in H. subst. cbn. f_equal. apply IH. reflexivity.
Qed.
Lemma map_fst_combine {A B} (l : list A) : forall m : list B, length m = length l -> map fst (combine l m) = l.
Proof. induction l as [|x l IH]; intros [|y m] H; cbn in *; try discriminate; auto. f_equal. apply IH. lia. Qed.

(** the accounts of an end instruction *)
Definition end_vaults (n : nat) (rem : list Z) : list Z := firstn n (skipn (length rem - 2 * n - 1) rem).
Definition end_tokens (n : nat) (rem : list Z) : list Z := firstn n (skipn (length rem - 2 * n - 1 + n) rem).
Definition end_health (n : nat) (rem : list Z) : list Z := firstn (length rem - 2 * n - 1) rem.

Lemma flash_end_spec e w acct owner args rem w' : flash_end e w acct owner args rem = Some w' ->
  exists nz tyz ty a w1 a1 rate L init lend f ps w2 a2 D post l2 toks,
    args = [nz; tyz] /\ loan_type_of tyz = Some ty /\ 0 < nz /\ w_accts w acct = Some a /\ is_operational w a = true /\
    is_owner_or_delegate w a owner = true /\ (2 * Z.to_nat nz + 1 <= length rem)%nat /\
    nth_error rem (length rem - 1) = Some (m_group a) /\
    end_scan w a (m_group a) (end_vaults (Z.to_nat nz) rem) (end_tokens (Z.to_nat nz) rem) 0 (end_health (Z.to_nat nz) rem)
      = Some (w1, a1, rate, L) /\
    (forall i, (i < Z.to_nat nz)%nat -> exists c, In c L /\ c_vault c = i) /\
    (ty <> LUnknown -> length L = 2%nat) /\
    e_health e FlashLoanEndV2 (end_health (Z.to_nat nz) rem) (put_acct w1 acct a1) acct = Some (init, lend) /\
    pre_check (m_liq a1) init lend = Some f /\
    prices e (put_acct w1 acct a1) L = Some ps /\
    apply_changes w1 (set_liq a1 f) ty rate (combine L ps) = Some (w2, a2, D) /\
    e_health e FlashLoanEndV2 (end_health (Z.to_nat nz) rem) (put_acct w2 acct a2) acct = Some (post, l2) /\
    post_check init post = true /\ deactivate_all (m_toks a2) D = Some toks /\
    w' = put_acct w2 acct (set_toks a2 toks).
Proof.
  unfold flash_end. intros H. destruct args as [|nz [|tyz [|]]]; try discriminate.
  change (firstn (Z.to_nat nz) (skipn (length rem - 2 * Z.to_nat nz - 1) rem)) with (end_vaults (Z.to_nat nz) rem) in H.
  change (firstn (Z.to_nat nz) (skipn (length rem - 2 * Z.to_nat nz - 1 + Z.to_nat nz) rem)) with (end_tokens (Z.to_nat nz) rem) in H.
  change (firstn (length rem - 2 * Z.to_nat nz - 1) rem) with (end_health (Z.to_nat nz) rem) in H.
  inv_opt H. apply some_inj in H.
  apply Z.ltb_lt in G. apply Nat.leb_le in G2. apply Z.eqb_eq in G3. subst z.
  do 18 eexists. split; [reflexivity|]. split; [eassumption|]. split; [exact G|]. split; [reflexivity|].
  split; [exact G0|]. split; [exact G1|]. split; [exact G2|]. split; [first [reflexivity|exact O1]|]. split; [first [reflexivity|exact O2]|].
  split.
  { intros i Hi. rewrite forallb_forall in G4. specialize (G4 i). rewrite in_seq in G4.
    destruct (existsb (fun c => Nat.eqb (c_vault c) i) l0) eqn:E; [|exfalso; assert (false = true) by (apply G4; lia); discriminate].
    apply existsb_exists in E as (c & I & Q). apply Nat.eqb_eq in Q. exists c. split; assumption. }
  split.
  { intros N. destruct l; [contradiction|apply Nat.eqb_eq in G5; exact G5|apply Nat.eqb_eq in G5; exact G5]. }
  split; [first [reflexivity|exact O3]|]. split; [first [reflexivity|exact O4]|]. split; [first [reflexivity|exact O5]|]. split; [first [reflexivity|exact O6]|]. split; [first [reflexivity|exact O7]|]. split; [exact G6|].
  split; [first [reflexivity|exact O8]|]. symmetry; exact H.
Qed.

(** ** flash loans over a transaction *)
(** the instruction starts a flash loan: account, signer, loan amounts, and the
    banks, vaults, token accounts and group *)
Definition starts_loan (i : ix) (acct owner : Z) (amounts rem : list Z) : Prop :=
  i_prog i = MANGO /\
  ((i_name i = FlashLoanBegin /\ exists tp ins, i_accts i = acct :: owner :: tp :: ins :: rem /\ i_args i = amounts) \/
   (i_name i = FlashLoanSwapBegin /\ exists m1 m2 sp tp ap ins amount,
      i_accts i = acct :: owner :: m1 :: m2 :: sp :: tp :: ap :: ins :: rem /\ i_args i = [amount] /\ amounts = [amount; 0])).

Lemma flash_begin_spec tx pos w acct owner amounts rem w' : flash_begin tx pos w acct owner amounts rem = Some w' ->
  exists a group cur, (0 < length amounts)%nat /\ length rem = (3 * length amounts + 1)%nat /\
    w_accts w acct = Some a /\ is_operational w a = true /\ is_owner_or_delegate w a owner = true /\
    nth_error tx pos = Some cur /\ i_prog cur = MANGO /\
    nth_error rem (3 * length amounts) = Some group /\
    begin_loans w group [] (combine (combine (combine (firstn (length amounts) rem)
      (firstn (length amounts) (skipn (length amounts) rem)))
      (firstn (length amounts) (skipn (2 * length amounts) rem))) amounts) = Some w' /\
    scan_flash (is_delegate w a owner) acct (length amounts) (skipn (length amounts) rem) (skipn (S pos) tx) = true.
Proof.
  unfold flash_begin. intros H. inv_opt H. apply some_inj in H. subst.
  apply Nat.ltb_lt in G. apply Nat.eqb_eq in G2. apply Z.eqb_eq in G4.
  do 3 eexists. split; [exact G|]. split; [exact G2|]. split; [reflexivity|]. split; [exact G0|]. split; [exact G1|].
  split; [first [reflexivity|eassumption]|]. split; [exact G4|]. split; [first [reflexivity|eassumption]|].
  split; [first [reflexivity|eassumption]|]. exact G5.
Qed.

Lemma nth_error_skipn {A} n k (l : list A) : nth_error (skipn n l) k = nth_error l (n + k).
Proof. revert l; induction n as [|n IH]; intros [|x l]; cbn; auto. destruct k; reflexivity. Qed.

(** a loan is open since instruction [i] *)
Record pending (tx : list ix) (p : nat) (w : world) (i : nat) (acct owner : Z) (n : nat) (trail : list Z) : Prop := mkPending {
  pe_lt : (i < p)%nat;
  pe_begin : exists x amounts rem, nth_error tx i = Some x /\ starts_loan x acct owner amounts rem /\
     n = length amounts /\ trail = skipn n rem;
  pe_pos : (0 < n)%nat;
  pe_len : length trail = (2 * n + 1)%nat;
  pe_quiet : forall k x, (i < k < p)%nat -> nth_error tx k = Some x -> i_prog x <> MANGO /\ ~ In MANGO (i_accts x);
  pe_scan : exists d, scan_flash d acct n trail (skipn p tx) = true;
  pe_open : open_only w (firstn n trail);
  pe_uniq : uniq w;
  pe_nonneg : nonneg_loans w }.
Definition finv (tx : list ix) (p : nat) (w : world) : Prop :=
  own_vaults w /\ (closed w \/ exists i acct owner n trail, pending tx p w i acct owner n trail).

Lemma closed_eq w w' : w_banks w' = w_banks w -> closed w -> closed w'.
Proof. intros E C k b H. rewrite E in H. apply (C k b H). Qed.
Lemma own_eq w w' : w_banks w' = w_banks w -> own_vaults w -> own_vaults w'.
Proof. intros E C k1 k2 b1 b2 H1 H2. rewrite E in H1, H2. apply (C k1 k2 b1 b2 H1 H2). Qed.
Lemma other_closed w w' : other w w' -> closed w -> closed w'.
Proof.
  intros (O & _) C k b' H. destruct (O k b' H) as [(b & H1 & H2)|(_ & H2)]; [|exact H2].
  destruct (C k b H1). destruct H2 as (_ & _ & _ & _ & a & i). split; congruence.
Qed.

Lemma last_n_rem trail acct owner tp rem n :
  last_n (length trail) (acct :: owner :: tp :: rem) = Some trail -> length trail = (2 * n + 1)%nat ->
  (2 * n + 1 <= length rem)%nat -> skipn (length rem - 2 * n - 1) rem = trail.
Proof.
  unfold last_n. intros H Hl Hr. destruct (Nat.leb _ _); [|discriminate]. apply some_inj in H. rewrite <- H.
  rewrite Hl in H |- *. clear H. cbn [length]. replace (S (S (S (length rem))) - (2 * n + 1))%nat with (S (S (S (length rem - 2 * n - 1)))) by lia.
  reflexivity.
Qed.

(** a finished end instruction leaves only resets behind *)
Lemma flash_end_banks e w acct owner args rem w' : flash_end e w acct owner args rem = Some w' ->
  bank_ids w w' /\ (forall k, w_banks w' k = w_banks w k \/ exists b', w_banks w' k = Some b' /\ reset b') /\
  exists n tyz, args = [Z.of_nat n; tyz] /\ (0 < n)%nat /\ (2 * n + 1 <= length rem)%nat /\
   (forall v, In v (end_vaults n rem) -> exists k b b', w_banks w k = Some b /\ fb_vault b = v /\ fb_initial b <> U64_MAX /\
      w_banks w' k = Some b' /\ reset b').
Proof.
  intros H. apply flash_end_spec in H.
  destruct H as (nz & tyz & ty & a & w1 & a1 & rate & L & init & lend & f & ps & w2 & a2 & D & post & l2 & toks &
    e1 & e2 & e3 & e4 & e5 & e6 & e7 & e8 & e9 & e10 & e11 & e12 & e13 & e14 & e15 & e16 & e17 & e18 & e19).
  apply end_scan_frame in e9. destruct e9 as (s1 & s2 & s3 & s4 & s5).
  apply prices_length in e14. apply apply_changes_frame in e15.
  destruct e15 as (c1 & c2 & c3 & c4 & c5 & c6 & c7 & c8 & c9 & c10). rewrite map_fst_combine in c10 by auto.
  subst w'. split.
  { intros k. specialize (c1 k). cbn [w_banks put_acct]. rewrite s1 in c1. exact c1. }
  split.
  { intros k. cbn [w_banks put_acct]. destruct (c9 k) as [E|E]; [left; congruence|right; exact E]. }
  exists (Z.to_nat nz), tyz. split; [rewrite Z2Nat.id by lia; exact e1|]. split; [lia|]. split; [exact e7|].
  intros v Iv. apply In_nth_error in Iv as (i & Hi).
  assert (Hl : (i < Z.to_nat nz)%nat).
  { assert (X : (i < length (end_vaults (Z.to_nat nz) rem))%nat) by (apply nth_error_Some; congruence).
    unfold end_vaults in X. rewrite firstn_length in X. lia. }
  destruct (e10 i Hl) as (c & Ic & Ec). destruct (s5 c Ic) as (b & b1 & b2 & b3 & b4 & _).
  destruct (c10 c Ic) as (b' & r1 & r2). exists (c_bank c), b, b'. subst i. cbn [w_banks put_acct].
  do 3 (split; [congruence|]). split; [exact r1|exact r2].
Qed.

Lemma exec_finv_closed e tx pos w c w' x : nth_error tx pos = Some x -> own_vaults w -> closed w ->
  exec e tx pos w c w' ->
  (own_vaults w' /\ closed w') \/
  (i_prog x = MANGO /\ (i_name c = FlashLoanBegin \/ i_name c = FlashLoanSwapBegin)).
Proof.
  intros Hx Ow C X. destruct X as [acct owner tp ins rem N A H|acct owner m1 m2 sp tp ap ins rem amount toks N A Ar Lr H
    |acct owner tp rem N A H|ins group acct rem N A H|acct rem N A H|N H|n N H].
  - right. apply flash_begin_spec in H. destruct H as (a & g & cur & _ & _ & _ & _ & _ & Hc & Hp & _).
    rewrite Hx in Hc. apply some_inj in Hc. subst. split; auto.
  - right. apply flash_begin_spec in H. destruct H as (a & g & cur & _ & _ & _ & _ & _ & Hc & Hp & _).
    rewrite Hx in Hc. apply some_inj in Hc. subst. split; auto.
  - left. apply flash_end_banks in H. destruct H as (B & K & _). split; [apply (bank_ids_own _ _ B Ow)|].
    intros k b Hk. destruct (K k) as [E|(b' & E & R)]; [apply (C k b); congruence|].
    rewrite E in Hk. apply some_inj in Hk. subst. exact R.
  - left. unfold region_begin in H. inv_opt H. apply some_inj in H. subst. split; [exact Ow|exact C].
  - left. unfold region_end in H. inv_opt H. apply some_inj in H. subst. split; [exact Ow|exact C].
  - left. destruct H as (H & _). split; [apply H|apply (other_closed _ _ H C)].
  - left. split; [apply H|apply (other_closed _ _ H C)].
Qed.

Lemma foreign_closed e tx pos i w w' : nth_error tx pos = Some i -> i_prog i <> MANGO ->
  foreign e tx pos i w w' -> own_vaults w -> closed w -> own_vaults w' /\ closed w'.
Proof.
  intros Hi Hp F. induction F as [w|w toks w' F IH|w c w1 w' I X F IH]; intros Ow C.
  - auto.
  - apply IH; assumption.
  - destruct (exec_finv_closed _ _ _ _ _ _ _ Hi Ow C X) as [(a & b)|(P & _)]; [apply IH; assumption|contradiction].
Qed.
Lemma foreign_quiet e tx pos i w w' : ~ In MANGO (i_accts i) -> foreign e tx pos i w w' ->
  w_banks w' = w_banks w /\ w_accts w' = w_accts w /\ w_now w' = w_now w /\ w_groups w' = w_groups w.
Proof.
  intros N F. induction F as [w|w toks w' F IH|w c w1 w' I X F IH]; auto. contradiction.
Qed.

Lemma skipn_nth {A} p (l : list A) x : nth_error l p = Some x -> skipn p l = x :: skipn (S p) l.
Proof. revert l; induction p as [|p IH]; intros [|y l] H; cbn in *; try discriminate; [apply some_inj in H; subst; reflexivity|apply IH, H]. Qed.

Lemma begin_pending tx p w acct owner amounts rem w' x :
  own_vaults w -> closed w -> nth_error tx p = Some x -> starts_loan x acct owner amounts rem ->
  flash_begin tx p w acct owner amounts rem = Some w' -> finv tx (S p) w'.
Proof.
  intros Ow C Hx St H. apply flash_begin_spec in H. destruct H as (a & g & cur & h1 & h2 & h3 & h4 & h5 & h6 & h7 & h8 & h9 & h10).
  assert (Hr : length rem = (length amounts + (2 * length amounts + 1))%nat) by lia.
  pose proof (begin_loans_ids _ _ _ _ _ h9) as (B & _).
  split; [apply (bank_ids_own _ _ B Ow)|]. right. exists p, acct, owner, (length amounts), (skipn (length amounts) rem).
  constructor.
  - lia.
  - exists x, amounts, rem. auto.
  - exact h1.
  - rewrite skipn_length, Hr. clear. lia.
  - intros k y Hk. lia.
  - exists (is_delegate w a owner). exact h10.
  - apply (begin_loans_open _ _ _ _ _ _ h9).
    + intros k b Hk. left. apply (C k b Hk).
    + intros v Hv. apply combine_vaults in Hv. exact Hv.
  - apply (begin_loans_uniq _ _ _ _ _ h9 (closed_nonneg _ C) (closed_uniq _ C)).
    intros k b Hk N. destruct (N (C k b Hk)).
  - apply (begin_loans_uniq _ _ _ _ _ h9 (closed_nonneg _ C) (closed_uniq _ C)).
    intros k b Hk N. destruct (N (C k b Hk)).
Qed.

Lemma tx_step_finv e tx p w w' : tx_step e tx p w w' -> finv tx p w -> finv tx (S p) w'.
Proof.
  intros St (Ow & [C|Pe]).
  - destruct St as [i Hi Hp X|i Hi Hp F].
    2:{ destruct (foreign_closed _ _ _ _ _ _ Hi Hp F Ow C). split; auto. }
    pose proof X as X'. apply (exec_finv_closed _ _ _ _ _ _ i Hi Ow C) in X'.
    destruct X' as [(a & b)|(_ & N)]; [split; auto|].
    destruct X as [acct owner tp ins rem N' A H|acct owner m1 m2 sp tp ap ins rem amount toks N' A Ar Lr H
    |acct owner tp rem N' A H|ins group acct rem N' A H|acct rem N' A H|N' H|n N' H];
      try (rewrite N' in N; destruct N; discriminate).
    + refine (begin_pending _ _ _ _ _ _ _ _ _ Ow C Hi _ H). split; [exact Hp|]. left. split; [exact N'|]. exists tp, ins. auto.
    + refine (begin_pending _ _ (set_tokens w toks) _ _ _ _ _ _ Ow C Hi _ H). split; [exact Hp|]. right. split; [exact N'|].
      exists m1, m2, sp, tp, ap, ins, amount. auto.
    + destruct N as [N|N]; rewrite N in N'; discriminate.
  - destruct Pe as (i & acct & owner & n & trail & [pl pb pp plen pq (d & ps) po pu pn]).
    destruct St as [x Hi Hp X|x Hi Hp F].
    + rewrite (skipn_nth _ _ _ Hi) in ps. cbn [scan_flash] in ps.
      destruct (d && negb (existsb (Z.eqb (i_prog x)) delegate_programs)); [discriminate|].
      rewrite Hp in ps. change (MANGO =? MANGO) with true in ps. cbn iota in ps.
      destruct (i_name x) eqn:N; try discriminate.
      destruct (nth_error (i_args x) 0) eqn:A0; [|discriminate].
      destruct (nth_error (i_accts x) 0) eqn:A1; [|discriminate].
      destruct (last_n (length trail) (i_accts x)) eqn:A2; [|discriminate].
      apply andb_prop in ps as [ps H3]. apply andb_prop in ps as [H1 H2]. apply Z.eqb_eq in H1, H2. subst z z0.
      assert (El : trail = l).
      { revert H3. clear. revert l. induction trail as [|y t IH]; intros [|z l] H; cbn [list_eqb] in H; try discriminate; auto.
        apply andb_prop in H as [E H]. apply Z.eqb_eq in E. subst. f_equal. apply IH, H. }
      subst l.
      destruct X as [acct' owner' tp ins rem N' A H|acct' owner' m1 m2 sp tp ap ins rem amount toks N' A Ar Lr H
        |acct' owner' tp rem N' A H|ins group acct' rem N' A H|acct' rem N' A H|N' H|m N' H]; try congruence.
      2:{ rewrite N in N'. discriminate. }
      rewrite A in A1, A2. cbn in A1. apply some_inj in A1. subst acct'.
      apply flash_end_banks in H. destruct H as (B & K & m & tyz & Ar & hm & hl & V).
      rewrite Ar in A0. cbn in A0. apply some_inj in A0. apply Nat2Z.inj in A0. subst m.
      pose proof (last_n_rem _ _ _ _ _ _ A2 plen hl) as T.
      split; [apply (bank_ids_own _ _ B Ow)|]. left. intros k b' Hk.
      destruct (K k) as [E|(b2 & E & R)]; [|rewrite E in Hk; apply some_inj in Hk; subst; exact R].
      rewrite E in Hk. destruct (po k b' Hk) as [R|I]; [exact R|].
      assert (I' : In (fb_vault b') (end_vaults n rem)) by (unfold end_vaults; rewrite T; exact I).
      destruct (V _ I') as (k2 & b2 & b3 & v1 & v2 & v3 & v4 & v5).
      assert (k2 = k) by (apply (Ow k2 k b2 b' v1 Hk v2)). subst k2. rewrite v4 in E. congruence.
    + rewrite (skipn_nth _ _ _ Hi) in ps. cbn [scan_flash] in ps.
      destruct (d && negb (existsb (Z.eqb (i_prog x)) delegate_programs)); [discriminate|].
      apply Z.eqb_neq in Hp as Hp'. rewrite Hp' in ps. cbn iota in ps.
      destruct (existsb (Z.eqb MANGO) (i_accts x)) eqn:Ex; [discriminate|].
      assert (NI : ~ In MANGO (i_accts x)).
      { intros I. rewrite <- not_true_iff_false in Ex. apply Ex, existsb_exists. exists MANGO. split; [exact I|reflexivity]. }
      destruct (foreign_quiet _ _ _ _ _ _ NI F) as (f1 & _).
      split; [apply (own_eq _ _ f1 Ow)|]. right. exists i, acct, owner, n, trail. constructor; auto.
      * intros k y Hk Hy. destruct (Nat.eq_dec k p) as [->|]; [|apply (pq k y); [lia|exact Hy]].
        rewrite Hi in Hy. apply some_inj in Hy. subst. auto.
      * exists d. exact ps.
      * intros k b Hk. rewrite f1 in Hk. apply (po k b Hk).
      * intros k1 k2 b1 b2 H1 H2. rewrite f1 in H1, H2. apply (pu k1 k2 b1 b2 H1 H2).
      * intros k b Hk. rewrite f1 in Hk. apply (pn k b Hk).
Qed.
Lemma steps_finv e tx p q w w' : steps e tx p q w w' -> finv tx p w -> finv tx q w'.
Proof. intros S; induction S as [p w|p q w w1 w' S1 S2 IH]; auto. intros F. apply IH, (tx_step_finv _ _ _ _ _ S1 F). Qed.

Lemma steps_le e tx p q w w' : steps e tx p q w w' -> (p <= q)%nat.
Proof. intros S; induction S; lia. Qed.
Lemma steps_split e tx p q w w' : steps e tx p q w w' -> forall m, (p <= m <= q)%nat ->
  exists w1, steps e tx p m w w1 /\ steps e tx m q w1 w'.
Proof.
  intros S; induction S as [p w|p q w w1 w' S1 S2 IH]; intros m Hm.
  - assert (m = p) by lia. subst. exists w. split; constructor.
  - destruct (Nat.eq_dec m p) as [->|N].
    + exists w. split; [constructor|]. apply (st_cons _ _ _ _ _ _ _ S1 S2).
    + pose proof (steps_le _ _ _ _ _ _ S2). destruct (IH m) as (w2 & A & B); [lia|]. exists w2. split; [|exact B].
      apply (st_cons _ _ _ _ _ _ _ S1 A).
Qed.
Lemma steps_one e tx p q w w' : steps e tx p q w w' -> (p < q)%nat ->
  exists w1, tx_step e tx p w w1 /\ steps e tx (S p) q w1 w'.
Proof. intros S H. destruct S as [|p q w w1 w' S1 S2]; [lia|]. exists w1. auto. Qed.
