(** C39: flash loans; C40: health regions.  Public statements. *)
From Coq Require Import List ZArith Lia Bool Arith.
From Verif Require Import Keys Fixed PerpTypes Interest InterestFacts Bank BankFacts BankSystem BankSpec BankInv LiqState TxRules TxFacts
  TxMoney TxRegion PropInterest PropBank.
Import ListNotations.
Open Scope Z_scope.

(** no flash loan is open *)
Definition no_loans (w : world) : Prop :=
  forall k b, w_banks w k = Some b -> fb_approved b = 0 /\ fb_initial b = U64_MAX.

(** ** C39 *)
(** An accepted transaction that starts without open loans leaves none. *)
Theorem C39_loans_closed (e : env) (tx : list ix) (w w' : world) :
  own_vaults w -> no_loans w -> accepted e tx w w' -> own_vaults w' /\ no_loans w'.
Proof.
  intros Ow C A. destruct (steps_finv _ _ _ _ _ _ A (conj Ow (or_introl C))) as (Ow' & [C'|Pe]); [split; assumption|].
  destruct Pe as (i & acct & owner & n & trail & [_ _ _ _ _ (d & S) _ _ _]).
  rewrite skipn_all in S. discriminate S.
Qed.

(** The instruction [x] starts a flash loan for account [acct], signed by [owner], with
    loan amounts [amounts]; [rem]: as many banks, vaults and token accounts as amounts,
    and the group. *)
Definition is_loan_begin (x : ix) (acct owner : Z) (amounts rem : list Z) : Prop :=
  i_prog x = MANGO /\
  ((i_name x = FlashLoanBegin /\ i_args x = amounts /\ exists tp ins, i_accts x = acct :: owner :: tp :: ins :: rem) \/
   (i_name x = FlashLoanSwapBegin /\ (exists amount, i_args x = [amount] /\ amounts = [amount; 0]) /\
      exists m1 m2 sp tp ap ins, i_accts x = acct :: owner :: m1 :: m2 :: sp :: tp :: ap :: ins :: rem)).
(** The instruction ends a flash loan: [trail] are the vaults, token accounts and the
    group at the end of its accounts, [health] the accounts before. *)
Definition is_loan_end (x : ix) (acct : Z) (n : nat) (health trail : list Z) : Prop :=
  i_prog x = MANGO /\ i_name x = FlashLoanEndV2 /\ length trail = (2 * n + 1)%nat /\
  (exists ty, i_args x = [Z.of_nat n; ty]) /\ exists owner tp, i_accts x = acct :: owner :: tp :: health ++ trail.

Lemma starts_loan_iff x acct owner amounts rem : is_loan_begin x acct owner amounts rem <-> starts_loan x acct owner amounts rem.
Proof.
  unfold is_loan_begin, starts_loan. split; intros (P & [H|H]); split; try exact P.
  - left. destruct H as (N & A & tp & ins & E). split; [exact N|]. exists tp, ins. auto.
  - right. destruct H as (N & (am & A1 & A2) & m1 & m2 & sp & tp & ap & ins & E). split; [exact N|].
    exists m1, m2, sp, tp, ap, ins, am. auto.
  - left. destruct H as (N & tp & ins & A & E). split; [exact N|]. split; [exact E|]. exists tp, ins. exact A.
  - right. destruct H as (N & m1 & m2 & sp & tp & ap & ins & am & E & A1 & A2). split; [exact N|].
    split; [exists am; auto|]. exists m1, m2, sp, tp, ap, ins. exact E.
Qed.
Lemma end_is_loan_end e tx p w w' y acct n trail :
  nth_error tx p = Some y -> tx_step e tx p w w' -> i_prog y = MANGO -> i_name y = FlashLoanEndV2 ->
  nth_error (i_args y) 0 = Some (Z.of_nat n) -> nth_error (i_accts y) 0 = Some acct ->
  last_n (length trail) (i_accts y) = Some trail -> length trail = (2 * n + 1)%nat ->
  exists owner tyz rem, flash_end e w acct owner [Z.of_nat n; tyz] rem = Some w' /\ i_args y = [Z.of_nat n; tyz] /\
    (exists tp, i_accts y = acct :: owner :: tp :: rem) /\ is_loan_end y acct n (end_health n rem) trail /\
    rem = end_health n rem ++ trail /\ skipn (length rem - 2 * n - 1) rem = trail.
Proof.
  intros Hy St P N A0 A1 A2 L. destruct St as [i Hi Hp X|i Hi Hp F]; rewrite Hy in Hi; apply some_inj in Hi; subst i; [|contradiction].
  destruct X as [acct' owner' tp ins rem N' A H|acct' owner' m1 m2 sp tp ap ins rem amount toks N' A Ar Lr H
        |acct' owner' tp rem N' A H|ins group acct' rem N' A H|acct' rem N' A H|N' H|m N' H]; try congruence.
  2:{ rewrite N in N'. discriminate. }
  rewrite A in A1, A2. cbn in A1. apply some_inj in A1. subst acct'.
  pose proof (flash_end_banks _ _ _ _ _ _ _ H) as (_ & _ & m & tyz & Ar & hm & hl & _).
  rewrite Ar in A0. cbn in A0. apply some_inj in A0. apply Nat2Z.inj in A0. subst m.
  pose proof (last_n_rem _ _ _ _ _ _ A2 L hl) as T.
  assert (R : rem = end_health n rem ++ trail) by (unfold end_health; pose proof (firstn_skipn (length rem - 2 * n - 1) rem) as FS; rewrite T in FS; symmetry; exact FS).
  exists owner', tyz, rem. split; [rewrite <- Ar; exact H|]. split; [exact Ar|]. split; [exists tp; exact A|].
  split; [|split; [exact R|exact T]]. split; [exact P|]. split; [exact N|]. split; [exact L|]. split; [exists tyz; exact Ar|].
  exists owner', tp. rewrite A. do 3 f_equal. exact R.
Qed.

(** Each begin in an accepted transaction is followed by an end for the same account,
    number of loans, vaults, token accounts and group.  Nothing between them is a mango
    instruction, or mentions the mango program so that it could call it; if the signer
    is the account's delegate, only the allowed programs run in between. *)
Theorem C39_paired (e : env) (tx : list ix) (w w' : world) (i : nat) (x : ix) (acct owner : Z) (amounts rem : list Z) :
  accepted e tx w w' -> nth_error tx i = Some x -> is_loan_begin x acct owner amounts rem ->
  let n := length amounts in
  exists j y health wi a, (i < j)%nat /\ nth_error tx j = Some y /\
    length rem = (3 * n + 1)%nat /\ is_loan_end y acct n health (skipn n rem) /\
    steps e tx 0 i w wi /\ w_accts wi acct = Some a /\
    forall k z, (i < k < j)%nat -> nth_error tx k = Some z ->
      i_prog z <> MANGO /\ ~ In MANGO (i_accts z) /\ (is_delegate wi a owner = true -> In (i_prog z) delegate_programs).
Proof.
  cbn zeta. intros Ac Hx Hb. apply starts_loan_iff in Hb.
  assert (Hi : (i < length tx)%nat) by (apply nth_error_Some; congruence).
  destruct (steps_split _ _ _ _ _ _ Ac i) as (wi & S1 & S2); [lia|].
  destruct (steps_one _ _ _ _ _ _ S2 Hi) as (wi1 & St & S3).
  assert (B : exists w0, w_accts w0 = w_accts wi /\ w_now w0 = w_now wi /\ flash_begin tx i w0 acct owner amounts rem = Some wi1).
  { destruct St as [x0 Hx0 Hp X|x0 Hx0 Hp F]; rewrite Hx in Hx0; apply some_inj in Hx0; subst x0; [|destruct Hb; contradiction].
    destruct Hb as (_ & [(N & tp & ins & A & E)|(N & m1 & m2 & sp & tp & ap & ins & am & A & E1 & E2)]);
    destruct X as [acct' owner' tp' ins' rem' N' A' H|acct' owner' m1' m2' sp' tp' ap' ins' rem' amount toks N' A' Ar Lr H
        |acct' owner' tp' rem' N' A' H|ins' group acct' rem' N' A' H|acct' rem' N' A' H|N' H|m N' H]; try congruence;
        try (rewrite N in N'; discriminate N').
    - rewrite A in A'. injection A' as <- <- <- <- <-. exists wi. subst amounts. auto.
    - rewrite A in A'. injection A' as <- <- <- <- <- <- <- <- <-. rewrite E1 in Ar. injection Ar as <-.
      exists (set_tokens wi toks). subst amounts. auto. }
  destruct B as (w0 & B1 & B2 & B). apply flash_begin_spec in B.
  destruct B as (a & g & cur & h1 & h2 & h3 & h4 & h5 & h6 & h7 & h8 & h9 & h10).
  apply scan_flash_spec in h10. destruct h10 as (j0 & y & q1 & q2 & q3 & q4 & q5 & q6 & q7).
  rewrite nth_error_skipn in q1. set (j := (S i + j0)%nat) in *.
  assert (Hj : (j < length tx)%nat) by (apply nth_error_Some; congruence).
  destruct (steps_split _ _ _ _ _ _ S3 j) as (wj & S4 & S5); [lia|].
  destruct (steps_one _ _ _ _ _ _ S5 Hj) as (wj1 & Sj & S6).
  assert (Lt : length (skipn (length amounts) rem) = (2 * length amounts + 1)%nat) by (rewrite skipn_length, h2; clear; lia).
  destruct (end_is_loan_end _ _ _ _ _ _ _ _ _ q1 Sj q2 q3 q4 q5 q6 Lt) as (ow & tyz & rem2 & _ & _ & _ & E & _).
  exists j, y, (end_health (length amounts) rem2), wi, a.
  split; [lia|]. split; [exact q1|]. split; [exact h2|]. split; [exact E|]. split; [exact S1|]. split; [congruence|].
  intros k z Hk Hz. destruct (q7 (k - S i)%nat z) as (r1 & r2 & r3); [lia| |].
  - rewrite nth_error_skipn. replace (S i + (k - S i))%nat with k by lia. exact Hz.
  - split; [exact r1|]. split; [exact r2|]. intros D. apply r3. revert D. unfold is_delegate. rewrite B2. auto.
Qed.

(** Each end in an accepted transaction is preceded by a begin for the same account,
    vaults, token accounts and group, with no mango instruction, nor one that could call
    mango, in between. *)
Theorem C39_end_after_begin (e : env) (tx : list ix) (w w' : world) (j : nat) (y : ix) :
  own_vaults w -> no_loans w -> accepted e tx w w' ->
  nth_error tx j = Some y -> i_prog y = MANGO -> i_name y = FlashLoanEndV2 ->
  exists i x acct owner amounts rem health, (i < j)%nat /\ nth_error tx i = Some x /\ is_loan_begin x acct owner amounts rem /\
    is_loan_end y acct (length amounts) health (skipn (length amounts) rem) /\
    forall k z, (i < k < j)%nat -> nth_error tx k = Some z -> i_prog z <> MANGO /\ ~ In MANGO (i_accts z).
Proof.
  intros Ow C Ac Hy P N.
  assert (Hj : (j < length tx)%nat) by (apply nth_error_Some; congruence).
  destruct (steps_split _ _ _ _ _ _ Ac j) as (wj & S1 & S2); [lia|].
  destruct (steps_one _ _ _ _ _ _ S2 Hj) as (wj1 & St & S3).
  destruct (steps_finv _ _ _ _ _ _ S1 (conj Ow (or_introl C))) as (Ow' & [C'|Pe]).
  - exfalso. destruct St as [i Hi Hp X|i Hi Hp F]; rewrite Hy in Hi; apply some_inj in Hi; subst i; [|contradiction].
    destruct X as [acct' owner' tp ins rem N' A H|acct' owner' m1 m2 sp tp ap ins rem amount toks N' A Ar Lr H
        |acct' owner' tp rem N' A H|ins group acct' rem N' A H|acct' rem N' A H|N' H|m N' H]; try congruence.
    2:{ rewrite N in N'. discriminate. }
    apply flash_end_banks in H. destruct H as (_ & _ & n & tyz & _ & hn & hl & V).
    destruct (end_vaults n rem) as [|v vs] eqn:E.
    + assert (L : length (end_vaults n rem) = n) by (unfold end_vaults; rewrite firstn_length, skipn_length; lia).
      rewrite E in L. cbn in L. lia.
    + destruct (V v (or_introl eq_refl)) as (k & b & b' & r1 & _ & r3 & _). destruct (C' k b r1). contradiction.
  - destruct Pe as (i & acct & owner & n & trail & [pl (x & amounts & rem & px & pst & pn0 & ptr) pp plen pq (d & ps) po pu pnn]).
    subst n trail. rewrite (skipn_nth _ _ _ Hy) in ps. cbn [scan_flash] in ps.
    destruct (d && negb (existsb (Z.eqb (i_prog y)) delegate_programs)); [discriminate|].
    rewrite P in ps. change (MANGO =? MANGO) with true in ps. cbn iota in ps. rewrite N in ps.
    destruct (nth_error (i_args y) 0) eqn:A0; [|discriminate].
    destruct (nth_error (i_accts y) 0) eqn:A1; [|discriminate].
    destruct (last_n (length (skipn (length amounts) rem)) (i_accts y)) eqn:A2; [|discriminate].
    apply andb_prop in ps as [ps H3]. apply andb_prop in ps as [H1 H2]. apply Z.eqb_eq in H1, H2. subst z z0.
    assert (El : skipn (length amounts) rem = l).
    { revert H3. clear. generalize (skipn (length amounts) rem). intros t. revert l. induction t as [|y t IH]; intros [|z l] H; cbn [list_eqb] in H; try discriminate; auto.
      apply andb_prop in H as [E H]. apply Z.eqb_eq in E. subst. f_equal. apply IH, H. }
    rewrite <- El in A2.
    destruct (end_is_loan_end _ _ _ _ _ _ _ _ _ Hy St P N A0 A1 A2 plen) as (ow & tyz & rem2 & _ & _ & _ & E & _).
    exists i, x, acct, owner, amounts, rem, (end_health (length amounts) rem2).
    split; [exact pl|]. split; [exact px|]. split; [apply starts_loan_iff; exact pst|]. split; [exact E|]. exact pq.
Qed.

(** Called by another program, none of the flash loan instructions succeeds. *)
Theorem C39_no_calls_by_programs (e : env) (tx : list ix) (w wj w1 w2 : world) (j : nat) (y c : ix) :
  own_vaults w -> no_loans w -> steps e tx 0 j w wj ->
  nth_error tx j = Some y -> i_prog y <> MANGO -> foreign e tx j y wj w1 -> In MANGO (i_accts y) -> exec e tx j w1 c w2 ->
  i_name c <> FlashLoanBegin /\ i_name c <> FlashLoanSwapBegin /\ i_name c <> FlashLoanEndV2.
Proof.
  intros Ow C S Hy P F M X.
  destruct (steps_finv _ _ _ _ _ _ S (conj Ow (or_introl C))) as (Ow' & [C'|Pe]).
  - destruct (foreign_closed _ _ _ _ _ _ Hy P F Ow' C') as (Ow1 & C1).
    destruct X as [acct' owner' tp ins rem N' A H|acct' owner' m1 m2 sp tp ap ins rem amount toks N' A Ar Lr H
        |acct' owner' tp rem N' A H|ins group acct' rem N' A H|acct' rem N' A H|N' H|m N' H].
    + exfalso. apply flash_begin_spec in H. destruct H as (a & g & cur & _ & _ & _ & _ & _ & Hc & Hp & _).
      rewrite Hy in Hc. apply some_inj in Hc. subst. contradiction.
    + exfalso. apply flash_begin_spec in H. destruct H as (a & g & cur & _ & _ & _ & _ & _ & Hc & Hp & _).
      rewrite Hy in Hc. apply some_inj in Hc. subst. contradiction.
    + exfalso. apply flash_end_banks in H. destruct H as (_ & _ & n & tyz & _ & hn & hl & V).
      destruct (end_vaults n rem) as [|v vs] eqn:E.
      * assert (L : length (end_vaults n rem) = n) by (unfold end_vaults; rewrite firstn_length, skipn_length; lia).
        rewrite E in L. cbn in L. lia.
      * destruct (V v (or_introl eq_refl)) as (k & b & b' & r1 & _ & r3 & _). destruct (C1 k b r1). contradiction.
    + rewrite N'. repeat split; discriminate.
    + rewrite N'. repeat split; discriminate.
    + destruct (i_name c); try discriminate N'; repeat split; discriminate.
    + rewrite N'. repeat split; discriminate.
  - exfalso. destruct Pe as (i & acct & owner & n & trail & [pl pb pp plen pq (d & ps) po pu pn]).
    rewrite (skipn_nth _ _ _ Hy) in ps. cbn [scan_flash] in ps.
    destruct (d && negb (existsb (Z.eqb (i_prog y)) delegate_programs)); [discriminate|].
    apply Z.eqb_neq in P. rewrite P in ps. destruct (existsb (Z.eqb MANGO) (i_accts y)) eqn:E; [discriminate|].
    rewrite <- not_true_iff_false in E. apply E, existsb_exists. exists MANGO. split; [exact M|reflexivity].
Qed.

(** tokens held by a token account; shares held in a token by an account *)
Definition tokens_in (w : world) (k : Z) : Z := match w_tokens w k with Some t => ta_amount t | None => 0 end.
Definition shares_in (a : macc) (t : Z) : Z := match pos_get (m_toks a) t with Some p => t_ix p | None => 0 end.
Definition native_of (b : bank) (shares : Z) : Z := native b (mkTpos shares 0).

(** What a begin does: flash loans are enabled for the group, the account is operational
    and the signer its owner or delegate; for each loan, the bank belongs to the group, the
    vault is the bank's, the token account has the bank's mint and does not belong to the
    group (so it is no vault); the amount moves from vault to token account, and the bank
    records the amount and the balance of the token account before.  (The swap variant may
    first create token accounts.) *)
Theorem C39_issued (e : env) (tx : list ix) (w w' : world) (i : nat) (x : ix) (acct owner g : Z) (amounts banks vaults tokens : list Z) :
  accepted e tx w w' -> nth_error tx i = Some x -> is_loan_begin x acct owner amounts (banks ++ vaults ++ tokens ++ [g]) ->
  length banks = length amounts -> length vaults = length amounts -> length tokens = length amounts -> NoDup (vaults ++ tokens) ->
  exists before after mid a gr, steps e tx 0 i w before /\ tx_step e tx i before after /\ steps e tx (S i) (length tx) after w' /\
    (exists toks, mid = set_tokens before toks) /\ (i_name x = FlashLoanBegin -> mid = before) /\
    w_accts before acct = Some a /\ m_frozen a < w_now before /\
    (m_owner a = owner \/ m_delegate a = owner \/ (m_tdelegate a = owner /\ w_now before <= m_texpiry a)) /\
    w_groups before g = Some gr /\ g_flash gr = true /\
    forall j bk vk tk am, nth_error banks j = Some bk -> nth_error vaults j = Some vk -> nth_error tokens j = Some tk ->
      nth_error amounts j = Some am ->
      exists b b' t, w_banks before bk = Some b /\ fb_group b = g /\ fb_vault b = vk /\ fb_approved b = 0 /\
        w_tokens mid tk = Some t /\ ta_mint t = fb_mint b /\ ta_owner t <> g /\ 0 <= am /\ (0 < am -> am <= tokens_in mid vk) /\
        w_banks after bk = Some b' /\ fb_approved b' = am /\ fb_initial b' = ta_amount t /\ fb_bank b' = fb_bank b /\
        tokens_in after vk = tokens_in mid vk - am /\ tokens_in after tk = tokens_in mid tk + am.
Proof.
  intros Ac Hx Hb Lb Lv Lt ND. apply starts_loan_iff in Hb.
  assert (Hi : (i < length tx)%nat) by (apply nth_error_Some; congruence).
  destruct (steps_split _ _ _ _ _ _ Ac i) as (wi & S1 & S2); [lia|].
  destruct (steps_one _ _ _ _ _ _ S2 Hi) as (wi1 & St & S3).
  assert (B : exists w0, (exists toks, w0 = set_tokens wi toks) /\ (i_name x = FlashLoanBegin -> w0 = wi) /\
    flash_begin tx i w0 acct owner amounts (banks ++ vaults ++ tokens ++ [g]) = Some wi1).
  { clear S3. destruct St as [x0 Hx0 Hp X|x0 Hx0 Hp F]; rewrite Hx in Hx0; apply some_inj in Hx0; subst x0; [|destruct Hb; contradiction].
    destruct Hb as (_ & [(N & tp & ins & A & E)|(N & m1 & m2 & sp & tp & ap & ins & am & A & E1 & E2)]);
    destruct X as [acct' owner' tp' ins' rem' N' A' H|acct' owner' m1' m2' sp' tp' ap' ins' rem' amount toks N' A' Ar Lr H
        |acct' owner' tp' rem' N' A' H|ins' group acct' rem' N' A' H|acct' rem' N' A' H|N' H|m N' H]; try congruence;
        try (rewrite N in N'; discriminate N').
    - rewrite A in A'. injection A' as <- <- <- <- <-. exists wi. subst amounts. split; [exists (w_tokens wi); destruct wi; reflexivity|]. auto.
    - rewrite A in A'. injection A' as <- <- <- <- <- <- <- <- <-. rewrite E1 in Ar. injection Ar as <-.
      exists (set_tokens wi toks). subst amounts. split; [exists toks; reflexivity|]. split; [congruence|exact H]. }
  destruct B as (w0 & (toks & B1) & B2 & B).
  assert (Eb : w_banks w0 = w_banks wi) by (subst w0; reflexivity). assert (Ea : w_accts w0 = w_accts wi) by (subst w0; reflexivity).
  assert (En : w_now w0 = w_now wi) by (subst w0; reflexivity). assert (Eg : w_groups w0 = w_groups wi) by (subst w0; reflexivity).
  pose proof B as Bg. unfold flash_begin in Bg. inv_opt Bg. clear Bg.
  apply flash_begin_spec in B. destruct B as (a & g' & cur & h1 & h2 & h3 & h4 & h5 & h6 & h7 & h8 & h9 & h10).
  set (n := length amounts) in *.
  assert (g' = g).
  { rewrite !app_assoc, nth_error_app2 in h8 by (rewrite !app_length; lia).
    replace (3 * n - length ((banks ++ vaults) ++ tokens))%nat with 0%nat in h8 by (rewrite !app_length; lia). cbn in h8. congruence. }
  subst g'. rewrite h3 in O. apply some_inj in O. subst m. rewrite h8 in O0. apply some_inj in O0. subst z.
  exists wi, wi1, w0, a, g0. split; [exact S1|]. split; [exact St|]. split; [exact S3|]. split; [exists toks; exact B1|]. split; [exact B2|].
  split; [congruence|].
  split; [unfold is_operational in h4; apply Z.ltb_lt in h4; rewrite <- En; exact h4|].
  split.
  { unfold is_owner_or_delegate, is_delegate in h5. apply orb_prop in h5 as [E|E]; [left; apply Z.eqb_eq, E|right].
    apply orb_prop in E as [E|E]; [left; apply Z.eqb_eq, E|right]. apply andb_prop in E as [E1 E2]. apply Z.eqb_eq in E2.
    apply negb_true_iff, Z.ltb_ge in E1. rewrite <- En. split; assumption. }
  split; [congruence|]. split; [assumption|].
  assert (F1 : firstn n (banks ++ vaults ++ tokens ++ [g]) = banks) by (rewrite <- Lb, firstn_app, Nat.sub_diag, firstn_all, firstn_O; apply app_nil_r).
  assert (F2 : firstn n (skipn n (banks ++ vaults ++ tokens ++ [g])) = vaults).
  { rewrite <- Lb, skipn_app, Nat.sub_diag, skipn_all. cbn [app skipn]. rewrite Lb, <- Lv, firstn_app, Nat.sub_diag, firstn_all, firstn_O. apply app_nil_r. }
  assert (F3 : firstn n (skipn (2 * n) (banks ++ vaults ++ tokens ++ [g])) = tokens).
  { rewrite app_assoc, skipn_app, skipn_all2 by (rewrite app_length; lia). replace (2 * n - length (banks ++ vaults))%nat with 0%nat by (rewrite app_length; lia).
    cbn [app skipn]. rewrite <- Lt, firstn_app, Nat.sub_diag, firstn_all, firstn_O. apply app_nil_r. }
  fold n in h9. rewrite F1, F2, F3 in h9.
  assert (C1 : l_vaults (combine (combine (combine banks vaults) tokens) amounts) = vaults /\
               l_tokens (combine (combine (combine banks vaults) tokens) amounts) = tokens).
  { revert Lb Lv Lt. unfold n. clear. revert vaults tokens amounts. induction banks as [|k banks IH]; intros [|v vaults] [|t tokens] [|m amounts]; cbn [length]; try discriminate; [split; reflexivity|].
    intros A B C. destruct (IH vaults tokens amounts) as [E1 E2]; [lia..|]. unfold l_vaults, l_tokens in *. cbn [combine map fst snd]. rewrite E1, E2. split; reflexivity. }
  destruct C1 as [C1 C2].
  intros j bk vk tk am Hbk Hvk Htk Ham.
  assert (I : In (bk, vk, tk, am) (combine (combine (combine banks vaults) tokens) amounts)).
  { apply nth_error_In with (n := j). revert Hbk Hvk Htk Ham. clear. revert vaults tokens amounts j.
    induction banks as [|k banks IH]; intros [|v vaults] [|t tokens] [|m amounts] [|j]; cbn; try discriminate; [congruence|]. apply IH. }
  assert (ND' : NoDup (l_vaults (combine (combine (combine banks vaults) tokens) amounts) ++ l_tokens (combine (combine (combine banks vaults) tokens) amounts)))
    by (rewrite C1, C2; exact ND).
  destruct (begin_loans_issue _ _ _ _ _ h9 ND' _ _ _ _ I)
    as (b & v & t & v' & t' & q1 & q2 & q3 & (q4 & _) & _ & q6 & q7 & q8 & q9 & q10 & q11 & q12 & q13 & q14 & q15 & q16).
  exists b, (set_flash b am (ta_amount t)), t. rewrite <- Eb. split; [exact q1|]. split; [exact q2|]. split; [exact q3|]. split; [exact q4|].
  split; [exact q8|]. split; [exact q9|]. split; [exact q10|]. split; [lia|]. unfold tokens_in. rewrite q7, q8, q13, q14. split; [exact q12|].
  split; [exact q6|]. split; [reflexivity|]. split; [reflexivity|]. split; [reflexivity|]. split; assumption.
Qed.
Print Assumptions C39_issued.

(** What an end does for every bank with an open loan, provided no account is listed
    twice: everything above the initial balance of the token account goes back to the
    vault; the position is charged the rest and the fees, to 2^-48 tokens or one index
    unit; the fees are those for the part of the loan not covered by the deposits, and
    for swaps a share of what was not repaid. *)
Theorem C39_repaid (e : env) (tx : list ix) (w w' : world) (j : nat) (y : ix) (acct : Z) (n : nat) (health vaults tokens : list Z) (g ty : Z) :
  own_vaults w -> no_loans w -> accepted e tx w w' -> nth_error tx j = Some y ->
  is_loan_end y acct n health (vaults ++ tokens ++ [g]) -> i_args y = [Z.of_nat n; ty] ->
  length vaults = n -> length tokens = n -> NoDup health -> NoDup (vaults ++ tokens) ->
  exists before after, steps e tx 0 j w before /\ tx_step e tx j before after /\ steps e tx (S j) (length tx) after w' /\
  ((forall k b, w_banks before k = Some b -> 0 < b_di (fb_bank b) /\ 0 < b_bi (fb_bank b) /\ 0 <= b_lof (fb_bank b)) ->
   forall a, w_accts before acct = Some a -> NoDup (map fst (m_toks a)) ->
   exists rate a', w_accts after acct = Some a' /\ 0 <= rate /\
   forall k b, w_banks before k = Some b -> (fb_approved b <> 0 \/ fb_initial b <> U64_MAX) ->
   exists vi tk b', nth_error vaults vi = Some (fb_vault b) /\ nth_error tokens vi = Some tk /\ In k health /\
     w_banks after k = Some b' /\ fb_swap_rate b <= rate /\
     let repaid := Z.max 0 (tokens_in before tk - fb_initial b) in
     tokens_in after (fb_vault b) = tokens_in before (fb_vault b) + repaid /\
     tokens_in after tk = tokens_in before tk - repaid /\
     let paid := of_int (repaid - fb_approved b) in
     let x := fb_bank b in let x' := fb_bank b' in
     let fee := b_fees x' - b_fees x in
     fee = fmul (Z.max 0 (of_int (fb_approved b) - Z.max 0 (native_of x (shares_in a (fb_index b))))) (b_lof x)
           + (if (ty =? 1) && (paid <? 0) then fmul (- paid) rate else 0) /\
     let change := worth (b_di x) (b_bi x) (shares_in a' (fb_index b)) - worth (b_di x) (b_bi x) (shares_in a (fb_index b))
                   + (b_dust x' - b_dust x) * fone + fee * fone in
     paid * fone - fone < change < paid * fone + Z.max (b_di x) (b_bi x)).
Proof.
  intros Ow C Ac Hy Ey Ay Lv Lt Nh Nv.
  destruct Ey as (P & N & Lr & _ & owner & tp & Eacc).
  assert (Hj : (j < length tx)%nat) by (apply nth_error_Some; congruence).
  destruct (steps_split _ _ _ _ _ _ Ac j) as (wj & S1 & S2); [lia|].
  destruct (steps_one _ _ _ _ _ _ S2 Hj) as (wj1 & St & S3).
  exists wj, wj1. split; [exact S1|]. split; [exact St|]. split; [exact S3|].
  intros Good a Ha Nk.
  set (trail := vaults ++ tokens ++ [g]) in *.
  assert (H : flash_end e wj acct owner [Z.of_nat n; ty] (health ++ trail) = Some wj1).
  { destruct St as [i Hi Hp X|i Hi Hp F]; rewrite Hy in Hi; apply some_inj in Hi; subst i; [|contradiction].
    destruct X as [acct' owner' tp' ins rem N' A H|acct' owner' m1 m2 sp tp' ap ins rem amount toks N' A Ar Lr' H
        |acct' owner' tp' rem N' A H|ins group acct' rem N' A H|acct' rem N' A H|N' H|m N' H]; try congruence; rewrite N in N'; discriminate. }
  assert (Lrem : length (health ++ trail) = (length health + (2 * n + 1))%nat) by (rewrite app_length, Lr; reflexivity).
  assert (E0 : (length (health ++ trail) - 2 * n - 1)%nat = length health) by (rewrite Lrem; clear; lia).
  assert (Eh : end_health n (health ++ trail) = health).
  { unfold end_health. rewrite E0, firstn_app, Nat.sub_diag, firstn_all. cbn. apply app_nil_r. }
  assert (Ev : end_vaults n (health ++ trail) = vaults).
  { unfold end_vaults. rewrite E0, skipn_app, Nat.sub_diag, skipn_all. cbn [app skipn]. unfold trail.
    rewrite <- Lv. rewrite firstn_app, Nat.sub_diag, firstn_all. cbn. apply app_nil_r. }
  assert (Et : end_tokens n (health ++ trail) = tokens).
  { unfold end_tokens. rewrite E0, skipn_app. rewrite skipn_all2 by lia. cbn [app].
    replace (length health + n - length health)%nat with n by lia. unfold trail. rewrite skipn_app. rewrite skipn_all2 by lia.
    rewrite Lv, Nat.sub_diag. cbn [app skipn]. rewrite <- Lt. rewrite firstn_app, Nat.sub_diag, firstn_all. cbn. apply app_nil_r. }
  destruct (steps_finv _ _ _ _ _ _ S1 (conj Ow (or_introl C))) as (Ow' & Inv).
  assert (UN : uniq wj /\ nonneg_loans wj).
  { destruct Inv as [C'|(i & ac & ow & m & tr & Pe)]; [split; [apply closed_uniq, C'|apply closed_nonneg, C']|].
    destruct Pe as [_ _ _ _ _ _ _ pu pn]. split; assumption. }
  destruct UN as (Un & Nn).
  assert (Open : forall k b, w_banks wj k = Some b -> fb_approved b <> 0 \/ fb_initial b <> U64_MAX -> In (fb_vault b) vaults).
  { intros k b Hk O. destruct Inv as [C'|(i & ac & ow & m & tr & Pe)]; [destruct (C' k b Hk), O; contradiction|].
    destruct Pe as [pl pb pp plen pq (d & ps) po pu pn].
    assert (T : tr = trail /\ m = n).
    { rewrite (skipn_nth _ _ _ Hy) in ps. cbn [scan_flash] in ps.
      destruct (d && negb (existsb (Z.eqb (i_prog y)) delegate_programs)); [discriminate|].
      rewrite P in ps. change (MANGO =? MANGO) with true in ps. cbn iota in ps. rewrite N, Ay in ps. cbn [nth_error] in ps.
      rewrite Eacc in ps. cbn [nth_error] in ps.
      destruct (last_n (length tr) (acct :: owner :: tp :: health ++ trail)) eqn:A2; [|discriminate].
      apply andb_prop in ps as [ps H3]. apply andb_prop in ps as [H1 _]. apply Z.eqb_eq in H1. apply Nat2Z.inj in H1.
      assert (El : tr = l).
      { revert H3. clear. revert l. induction tr as [|y t IH]; intros [|z l] H; cbn [list_eqb] in H; try discriminate; auto.
        apply andb_prop in H as [E H]. apply Z.eqb_eq in E. subst. f_equal. apply IH, H. }
      subst l m. split; [|reflexivity]. apply last_n_rem with (n := n) in A2; [|exact plen|rewrite Lrem; clear; lia].
      rewrite E0, skipn_app, Nat.sub_diag, skipn_all in A2. cbn [app skipn] in A2. auto. }
    destruct T as (-> & ->). destruct (po k b Hk) as [(R1 & R2)|I]; [destruct O; contradiction|].
    revert I. unfold trail. rewrite <- Lv. rewrite firstn_app, Nat.sub_diag, firstn_all. cbn [firstn]. rewrite app_nil_r. auto. }
  assert (Lf : forall k b, w_banks wj k = Some b -> 0 <= b_lof (fb_bank b)) by (intros k b Hk; apply (Good k b Hk)).
  destruct (flash_end_money _ _ _ _ _ _ _ _ _ H Ha Ow' Un Nn Nk) as (lt & rate & a' & m1 & m2 & m3 & m4 & _);
    rewrite ?Eh, ?Ev, ?Et; try assumption.
  exists rate, a'. split; [exact m2|]. split; [exact m3|]. intros k b Hk O.
  pose proof (Open k b Hk O) as Iv. apply In_nth_error in Iv as (vi & Hv).
  destruct (nth_error tokens vi) as [tk|] eqn:Htk.
  2:{ apply nth_error_None in Htk. assert (vi < length vaults)%nat by (apply nth_error_Some; congruence). lia. }
  rewrite Ev, Et, Eh in m4. destruct (m4 vi _ tk Hv Htk) as (k2 & b2 & b' & p & p' & act & r1 & r2 & r3 & r4 & r5 & r6 & r7 & r8 & r9 & r10 & r11).
  assert (k2 = k) by (apply (Ow' k2 k b2 b r1 Hk r2)). subst k2. rewrite Hk in r1. apply some_inj in r1. subst b2.
  exists vi, tk, b'. split; [exact Hv|]. split; [exact Htk|]. split; [exact r4|]. split; [exact r3|]. split; [exact r5|].
  cbn zeta. fold (repaid wj b tk) in *. change (Z.max 0 (tokens_in wj tk - fb_initial b)) with (repaid wj b tk).
  split; [exact r6|]. split; [exact r7|].
  destruct (Good k b Hk) as (gd & gb & gl).
  assert (Ep : native (fb_bank b) p = native_of (fb_bank b) (shares_in a (fb_index b))).
  { unfold native_of, native. cbn [t_ix]. unfold shares_in. unfold share in r8. rewrite <- r8. reflexivity. }
  assert (Ef : b_fees (fb_bank b') - b_fees (fb_bank b) = fees_of b (native (fb_bank b) p) lt rate (of_int (repaid wj b tk - fb_approved b))).
  { revert r9. set (paid := of_int (repaid wj b tk - fb_approved b)). set (fee := fees_of _ _ _ _ _). unfold bank_op.
    destruct (guard (0 <=? fee)) eqn:Gg; [|discriminate]. apply guard_some in Gg. apply Z.leb_le in Gg.
    set (x0 := set_totals (fb_bank b) (b_dep (fb_bank b)) (b_bor (fb_bank b)) (b_dust (fb_bank b)) (b_fees (fb_bank b) + fee)).
    assert (I0 : index_ok x0) by (split; assumption).
    destruct (Z.leb_spec 0 (paid - fee)).
    - unfold deposit. destruct (deposit_internal x0 p (paid - fee) (negb (in_use p)) (w_now wj)) as [[[xx pp] aa]|] eqn:E; [|discriminate].
      intros Q. apply some_inj in Q. injection Q as -> _ _. apply deposit_spec in E; [|exact I0]. destruct E as (_ & _ & -> & _).
      unfold x0. cbn [b_fees set_totals]. lia.
    - unfold withdraw_without_fee.
      destruct (withdraw_internal x0 p (- (paid - fee)) false (negb (in_use p)) (w_now wj)) as [[[xx pp] rr]|] eqn:E; [|discriminate].
      intros Q. apply some_inj in Q. injection Q as -> _ _. apply withdraw_spec in E; [|exact I0|exact gl].
      destruct E as (_ & _ & _ & _ & -> & -> & _). cbn [andb]. unfold x0. cbn [b_fees set_totals]. lia. }
  split.
  - rewrite Ef. unfold fees_of, loan_fee. rewrite Ep. f_equal.
    + f_equal. pose proof (Nn k b Hk) as Na. pose proof fone_pos. assert (0 <= of_int (fb_approved b)) by (unfold of_int; nia).
      destruct (Z.ltb_spec 0 (native_of (fb_bank b) (shares_in a (fb_index b)))); lia.
    + unfold swap_fee. revert m1. unfold loan_type_of.
      destruct (Z.eqb_spec ty 0); [intros q; injection q as <-; subst ty; reflexivity|].
      destruct (Z.eqb_spec ty 1); [intros q; injection q as <-; reflexivity|].
      destruct (Z.eqb_spec ty 2); [intros q; injection q as <-; reflexivity|discriminate].
  - pose proof (C24_every_call _ _ _ _ _ _ _ gd gb gl r9) as K. cbn zeta in K.
    assert (Es : t_ix p' = shares_in a' (fb_index b)).
    { unfold shares_in. destruct r11 as [->|(-> & Ea)]; [reflexivity|].
      apply (C26_in_use_kept _ _ _ _ _ _ _ gd gb gl r9). exact Ea. }
    assert (Es2 : t_ix p = shares_in a (fb_index b)) by exact r8.
    rewrite Es, Es2 in K. exact K.
Qed.

(** *** a flash loan *)
Definition ex_tbank (dep : Z) : bank :=
  mkBank (1000000 * fone) (1000000 * fone) dep 0 0 0 (fone / 2000) 0 100 0 1000 fone 0 0 0 (fone * 9 / 10) 0 ex_par 0.
(** the account's deposit: a little over 50 tokens *)
Definition ex_shares : Z := fone / 20000 + 1.
Definition ex_fb : fbank := mkFb 7 101 21 1 0 U64_MAX 0 (ex_tbank (fone / 1000 + ex_shares)).
Definition ex_acc : macc := mkMacc 7 10 0 0 0 0 false false 0 8 [(1, mkTpos ex_shares 0)].
Definition ex_w : world :=
  mkW (fun k => if k =? 100 then Some ex_fb else None)
      (fun k => if k =? 50 then Some ex_acc else None)
      (fun k => if k =? 101 then Some (mkTacc 21 7 1050) else if k =? 102 then Some (mkTacc 21 10 3) else None)
      (fun k => if k =? 7 then Some (mkGrp true true) else None) 5.
Definition ex_env : env := mkEnv (fun _ _ _ _ => Some (of_int 5000, of_int 5000)) (fun _ _ => Some fone).
Definition ex_begin : ix := mkIx MANGO FlashLoanBegin [100] [50; 10; 90; 91; 100; 101; 102; 7].
Definition ex_swap : ix := mkIx 4 (OtherIx 0) [] [102; 103].
Definition ex_end (banks : list Z) : ix := mkIx MANGO FlashLoanEndV2 [1; 0] ([50; 10; 90] ++ banks ++ [101; 102; 7]).
(** the program in between leaves 51 tokens more in the token account than there were
    before the loan *)
Definition ex_toks (w : world) : Z -> option tacc := put (w_tokens w) 102 (mkTacc 21 10 54).
Definition get {A} (d : A) (o : option A) : A := match o with Some x => x | None => d end.
Definition ex_w1 : world := get ex_w (flash_begin [ex_begin; ex_swap; ex_end []] 0 ex_w 50 10 [100] [100; 101; 102; 7]).
Definition ex_w2 : world := set_tokens ex_w1 (ex_toks ex_w1).
Definition ex_w3 (banks : list Z) : world := get ex_w (flash_end ex_env ex_w2 50 10 [1; 0] (banks ++ [101; 102; 7])).
Lemma ex_w_own : own_vaults ex_w.
Proof.
  intros k1 k2 b1 b2. cbn [w_banks ex_w]. destruct (Z.eqb_spec k1 100); [|discriminate]. destruct (Z.eqb_spec k2 100); [|discriminate]. congruence.
Qed.
Lemma ex_w_none : no_loans ex_w.
Proof. intros k b. cbn [w_banks ex_w]. destruct (k =? 100); [|discriminate]. intros H. apply some_inj in H. subst. split; reflexivity. Qed.
Lemma get_some {A} (d : A) (o : option A) : match o with Some _ => true | None => false end = true -> o = Some (get d o).
Proof. destruct o; [reflexivity|discriminate]. Qed.
Lemma ex_accepted banks :
  match flash_end ex_env ex_w2 50 10 [1; 0] (banks ++ [101; 102; 7]) with Some _ => true | None => false end = true ->
  match flash_begin [ex_begin; ex_swap; ex_end banks] 0 ex_w 50 10 [100] [100; 101; 102; 7] with Some _ => true | None => false end = true ->
  accepted ex_env [ex_begin; ex_swap; ex_end banks] ex_w (ex_w3 banks).
Proof.
  intros A B. unfold accepted. cbn [length].
  apply st_cons with (w1 := ex_w1).
  { apply (s_mango _ _ _ _ _ ex_begin); [reflexivity|reflexivity|].
    apply (x_flash_begin _ _ _ _ _ _ 50 10 90 91 [100; 101; 102; 7]); [reflexivity|reflexivity|].
    change (i_args ex_begin) with [100]. rewrite (get_some ex_w _ B). f_equal. unfold ex_w1.
    (* the result does not depend on the tail of the accounts of the end instruction *)
    apply get_some with (d := ex_w) in B. revert B. cbn [i_args ex_begin].
    assert (E : forall tx x, flash_begin tx 0 ex_w 50 10 [100] [100; 101; 102; 7] = Some x ->
      begin_loans ex_w 7 [] [(100, 101, 102, 100)] = Some x).
    { intros tx x H. apply flash_begin_spec in H. destruct H as (a & g & cur & _ & _ & _ & _ & _ & _ & _ & Hg & H & _).
      cbn [length Nat.mul Nat.add nth_error] in Hg. apply some_inj in Hg. subst g. exact H. }
    intros B. apply E in B.
    destruct (flash_begin [ex_begin; ex_swap; ex_end []] 0 ex_w 50 10 [100] [100; 101; 102; 7]) as [x|] eqn:E2; [|vm_compute in E2; discriminate].
    apply E in E2. cbn [get]. congruence. }
  apply st_cons with (w1 := ex_w2).
  { apply (s_foreign _ _ _ _ _ ex_swap); [reflexivity|discriminate|].
    apply f_tokens with (toks := ex_toks ex_w1). apply f_done. }
  apply st_cons with (w1 := ex_w3 banks); [|apply st_nil].
  apply (s_mango _ _ _ _ _ (ex_end banks)); [reflexivity|reflexivity|].
  apply (x_flash_end _ _ _ _ _ _ 50 10 90 (banks ++ [101; 102; 7])); [reflexivity|reflexivity|].
  apply (get_some ex_w _ A).
Qed.
Example C39_ex : accepted ex_env [ex_begin; ex_swap; ex_end [100]] ex_w (ex_w3 [100]) /\
  fb_approved (get ex_fb (w_banks ex_w1 100)) = 100 /\ tokens_in ex_w1 101 = 950 /\ tokens_in (ex_w3 [100]) 101 = 1001 /\
  is_loan_begin ex_begin 50 10 [100] [100; 101; 102; 7] /\ is_loan_end (ex_end [100]) 50 1 [100] ([101] ++ [102] ++ [7]) /\
  own_vaults ex_w /\ no_loans ex_w.
Proof.
  split; [apply ex_accepted; vm_compute; reflexivity|]. split; [vm_compute; reflexivity|]. split; [vm_compute; reflexivity|].
  split; [vm_compute; reflexivity|].
  split; [split; [reflexivity|]; left; split; [reflexivity|]; split; [reflexivity|]; exists 90, 91; reflexivity|].
  split; [split; [reflexivity|]; split; [reflexivity|]; split; [reflexivity|]; split; [exists 0; reflexivity|]; exists 10, 90; reflexivity|].
  split; [exact ex_w_own|exact ex_w_none].
Qed.
Print Assumptions C39_loans_closed.
Print Assumptions C39_paired.
Print Assumptions C39_end_after_begin.
Print Assumptions C39_no_calls_by_programs.
Print Assumptions C39_repaid.

(** The condition of [C39_repaid] is needed: when the end lists the bank twice, the loan
    is charged twice, and if the first charge dusts the position, the debt of the second
    is deleted with the position.  Here nobody owes anything, but the bank has over 99 tokens
    of borrows, on which depositors earn interest. *)
Theorem C39_listed_twice_refuted : exists (e : env) (tx : list ix) (w w' : world) (k : Z) (b b' : fbank),
  own_vaults w /\ no_loans w /\ accepted e tx w w' /\
  w_banks w k = Some b /\ b_bor (fb_bank b) = 0 /\ w_banks w' k = Some b' /\
  of_int 99 <= native_borrows (fb_bank b') /\
  (forall acct a, w_accts w' acct = Some a -> m_toks a = []).
Proof.
  exists ex_env, [ex_begin; ex_swap; ex_end [100; 100]], ex_w, (ex_w3 [100; 100]), 100, ex_fb, (get ex_fb (w_banks (ex_w3 [100; 100]) 100)).
  split; [exact ex_w_own|]. split; [exact ex_w_none|]. split; [apply ex_accepted; vm_compute; reflexivity|].
  split; [reflexivity|]. split; [reflexivity|]. split; [apply get_some; vm_compute; reflexivity|].
  split; [apply Z.leb_le; vm_compute; reflexivity|].
  intros acct a. unfold ex_w3.
  destruct (flash_end ex_env ex_w2 50 10 [1; 0] ([100; 100] ++ [101; 102; 7])) as [w'|] eqn:E; [|vm_compute in E; discriminate].
  intros H. cbn [get] in H.
  destruct (Z.eq_dec acct 50) as [->|N].
  - assert (X : match flash_end ex_env ex_w2 50 10 [1; 0] ([100; 100] ++ [101; 102; 7]) with
                | Some w' => match w_accts w' 50 with Some a => m_toks a | None => [] end | None => [] end = []) by (vm_compute; reflexivity).
    rewrite E, H in X. exact X.
  - exfalso. apply flash_end_spec in E.
    destruct E as (nz & tyz & ty & a0 & w1 & a1 & rate & L & init & lend & f & ps & w2 & a2 & D & post & l2 & toks &
      e1 & e2 & e3 & e4 & e5 & e6 & e7 & e8 & e9 & e10 & e11 & e12 & e13 & e14 & e15 & e16 & e17 & e18 & e19).
    apply end_scan_frame in e9. destruct e9 as (_ & s2 & _). apply apply_changes_frame in e15. destruct e15 as (_ & c2 & _).
    subst w'. unfold put_acct, put in H; cbn [w_accts] in H. apply Z.eqb_neq in N as N'. rewrite N' in H. rewrite c2, s2 in H.
    assert (Ea : w_accts ex_w2 = w_accts ex_w).
    { unfold ex_w2, ex_w1. cbn [w_accts set_tokens].
      destruct (flash_begin [ex_begin; ex_swap; ex_end []] 0 ex_w 50 10 [100] [100; 101; 102; 7]) as [x|] eqn:Eb; [|reflexivity].
      apply flash_begin_spec in Eb. destruct Eb as (? & ? & ? & _ & _ & _ & _ & _ & _ & _ & _ & Eb & _).
      apply begin_loans_ids in Eb. destruct Eb as (_ & Eb & _). exact Eb. }
    rewrite Ea in H. cbn [w_accts ex_w] in H. rewrite N' in H. discriminate.
Qed.
Print Assumptions C39_listed_twice_refuted.

(** ** C40 *)
(** An accepted transaction that starts with no account inside a health region leaves
    none inside. *)
Theorem C40_regions_closed (e : env) (tx : list ix) (w w' : world) :
  (forall k a, w_accts w k = Some a -> m_region a = false) -> accepted e tx w w' ->
  forall k a, w_accts w' k = Some a -> m_region a = false.
Proof.
  intros N A. destruct (steps_rinv _ _ _ _ _ _ A (or_introl N)) as [N'|(acct & h & _ & S)]; [exact N'|].
  rewrite skipn_all in S. discriminate S.
Qed.

(** Every begin is followed by an end for the same account.  Everything in between is a
    mango instruction from the list of allowed ones.  With [h0] the init health of the
    account just before the begin and [h1] just before the end: [h1] is not negative, or
    [h0] was negative too and [h1] is not lower than [h0] or, below -1000, at least not
    lower than [h0] minus 1.  The account is not being liquidated after the begin, and
    is not inside a region after the end. *)
Theorem C40_paired_and_checked (e : env) (tx : list ix) (w w' : world) (i : nat) (x : ix) (ins group acct : Z) (rem : list Z) :
  (forall k a, w_accts w k = Some a -> m_region a = false) -> accepted e tx w w' ->
  nth_error tx i = Some x -> i_prog x = MANGO -> i_name x = HealthRegionBegin -> i_accts x = ins :: group :: acct :: rem ->
  exists j y rem' wi wi' wj wj' h0 l0 h1 l1 ai aj, (i < j)%nat /\ nth_error tx j = Some y /\
    i_prog y = MANGO /\ i_name y = HealthRegionEnd /\ i_accts y = acct :: rem' /\
    (forall k z, (i < k < j)%nat -> nth_error tx k = Some z -> i_prog z = MANGO /\ allowed_inner (i_name z) = true) /\
    steps e tx 0 i w wi /\ tx_step e tx i wi wi' /\ steps e tx (S i) j wi' wj /\ tx_step e tx j wj wj' /\ steps e tx (S j) (length tx) wj' w' /\
    e_health e HealthRegionBegin rem wi acct = Some (h0, l0) /\ e_health e HealthRegionEnd rem' wj acct = Some (h1, l1) /\
    (0 <= h1 \/ (h0 < 0 /\ (h0 <= h1 \/ (h1 < of_int (-1000) /\ h0 - fone < h1)))) /\
    w_accts wi' acct = Some ai /\ m_liq ai = false /\ w_accts wj' acct = Some aj /\ m_region aj = false.
Proof.
  intros N Ac Hx P Nm Eacc.
  assert (Hi : (i < length tx)%nat) by (apply nth_error_Some; congruence).
  destruct (steps_split _ _ _ _ _ _ Ac i) as (wi & S1 & S2); [lia|].
  destruct (steps_one _ _ _ _ _ _ S2 Hi) as (wi1 & St & S3).
  assert (H : region_begin e tx i wi group acct rem = Some wi1).
  { destruct St as [z Hz Hp X|z Hz Hp F]; rewrite Hx in Hz; apply some_inj in Hz; subst z; [|contradiction].
    destruct X as [acct' owner' tp' ins' rem' N' A H|acct' owner' m1 m2 sp tp' ap ins' rem' amount toks N' A Ar Lr' H
        |acct' owner' tp' rem' N' A H|ins' group' acct' rem' N' A H|acct' rem' N' A H|N' H|m N' H]; try congruence; rewrite Nm in N'; discriminate. }
  apply region_begin_spec in H. destruct H as (a & f & cur & h0 & l0 & h & q1 & q2 & q3 & q4 & q5 & q6 & q7 & q8 & q9 & q10 & q11).
  apply scan_region_spec in q7. destruct q7 as (j0 & y & r1 & r2 & r3 & r4 & r5).
  rewrite nth_error_skipn in r1. set (j := (S i + j0)%nat) in *.
  assert (Hj : (j < length tx)%nat) by (apply nth_error_Some; congruence).
  destruct (steps_split _ _ _ _ _ _ S3 j) as (wj & S4 & S5); [lia|].
  destruct (steps_one _ _ _ _ _ _ S5 Hj) as (wj1 & Sj & S6).
  assert (E : exists rem', i_accts y = acct :: rem' /\ region_end e wj acct rem' = Some wj1).
  { destruct Sj as [z Hz Hp X|z Hz Hp F]; rewrite r1 in Hz; apply some_inj in Hz; subst z; [|contradiction].
    destruct X as [acct' owner' tp' ins' rem' N' A H|acct' owner' m1 m2 sp tp' ap ins' rem' amount toks N' A Ar Lr' H
        |acct' owner' tp' rem' N' A H|ins' group' acct' rem' N' A H|acct' rem' N' A H|N' H|m N' H]; try congruence;
      try (rewrite r3 in N'; discriminate).
    rewrite A in r4. cbn in r4. apply some_inj in r4. subst acct'. exists rem'. auto. }
  destruct E as (rem' & E1 & E2). apply region_end_spec in E2. destruct E2 as (a2 & h1 & l1 & t1 & t2 & t3 & t4 & t5).
  assert (In_ : forall k z, (i < k < j)%nat -> nth_error tx k = Some z -> i_prog z = MANGO /\ allowed_inner (i_name z) = true).
  { intros k z Hk Hz. apply (r5 (k - S i)%nat z); [lia|]. rewrite nth_error_skipn. replace (S i + (k - S i))%nat with k by lia. exact Hz. }
  assert (R : region_only wi1 acct h).
  { assert (Nwi : no_region wi).
    { destruct (steps_rinv _ _ _ _ _ _ S1 (or_introl N)) as [Nw|(ac & hh & R & Sc)]; [exact Nw|].
      rewrite (skipn_nth _ _ _ Hx) in Sc. cbn [scan_region] in Sc. rewrite P, Nm in Sc. discriminate Sc. }
    subst wi1. split.
    - intros k a'. unfold put_acct, put; cbn [w_accts]. destruct (k =? acct) eqn:E; [intros _ _; apply Z.eqb_eq, E|].
      intros Hk Hr. rewrite (Nwi k a' Hk) in Hr. discriminate.
    - unfold put_acct, put; cbn [w_accts]. rewrite Z.eqb_refl. eexists. split; [reflexivity|]. split; reflexivity. }
  assert (R2 : region_only wj acct h) by (apply (inner_steps _ _ _ _ _ _ _ _ S4); [intros k z Hk; apply In_; lia|exact R]).
  destruct R2 as (_ & a3 & u1 & u2 & u3). rewrite t1 in u1. apply some_inj in u1. subst a3.
  exists j, y, rem', wi, wi1, wj, wj1, h0, l0, h1, l1, (set_region (set_liq a f) true h), (set_region a2 false 0).
  split; [lia|]. split; [exact r1|]. split; [exact r2|]. split; [exact r3|]. split; [exact E1|]. split; [exact In_|].
  split; [exact S1|]. split; [exact St|]. split; [exact S4|]. split; [exact Sj|]. split; [exact S6|].
  split; [exact q8|]. split; [exact t3|]. split; [|split; [|split; [|split]]].
  - rewrite u3, q10 in t4. unfold post_check in t4. pose proof (ceil_int_bounds h0) as [_ B]. pose proof fone_pos as Hf.
    apply orb_prop in t4 as [t4|t4]; [left; apply Z.leb_le, t4|]. destruct (Z_lt_le_dec h1 0) as [Hn|]; [right|left; lia].
    destruct (Z.ltb_spec h1 (of_int (-1000))).
    + apply Z.leb_le in t4. assert (fceil (of_int (ceil_int h0)) = of_int (ceil_int h0)).
      { unfold fceil, of_int. replace (- (ceil_int h0 * fone)) with (- ceil_int h0 * fone) by lia. rewrite Z.div_mul by lia. lia. }
      rewrite H0 in t4. assert (Hc : fceil h1 < h1 + fone).
      { unfold fceil. pose proof (Z.div_mod (- h1) fone). pose proof (Z.mod_pos_bound (- h1) fone). nia. }
      unfold of_int in *. split; [|right; split; [assumption|]]; nia.
    + apply Z.leb_le in t4. split; [|left]; lia.
  - subst wi1. unfold put_acct, put; cbn [w_accts]. rewrite Z.eqb_refl. reflexivity.
  - cbn [m_liq set_region set_liq]. unfold pre_check in q9. destruct (if recover (m_liq a) h0 then _ else _) eqn:Er; [discriminate|].
    apply some_inj in q9. subst f. reflexivity.
  - subst wj1. unfold put_acct, put; cbn [w_accts]. rewrite Z.eqb_refl. reflexivity.
  - reflexivity.
Qed.

(** Called by another program, a begin never succeeds. *)
Theorem C40_no_calls_by_programs (e : env) (tx : list ix) (w w' : world) (j : nat) (y c : ix) :
  nth_error tx j = Some y -> i_prog y <> MANGO -> exec e tx j w c w' -> i_name c <> HealthRegionBegin.
Proof.
  intros Hy P X Nb. destruct X as [acct' owner' tp ins rem N' A H|acct' owner' m1 m2 sp tp ap ins rem amount toks N' A Ar Lr H
        |acct' owner' tp rem N' A H|ins group acct' rem N' A H|acct' rem N' A H|N' H|m N' H]; try congruence.
  - apply region_begin_spec in H. destruct H as (a & f & cur & i0 & l & h & _ & _ & _ & _ & Hc & Hp & _). congruence.
  - rewrite Nb in N'. discriminate.
Qed.

(** *** a region around placing an order *)
Definition ex_rbegin : ix := mkIx MANGO HealthRegionBegin [] [91; 7; 50; 100].
Definition ex_place : ix := mkIx MANGO PerpPlaceOrderV2 [] [7; 50; 10].
Definition ex_rend : ix := mkIx MANGO HealthRegionEnd [] [50; 100].
(** health falls from 5000 to 3, below zero in between does not matter *)
Definition ex_renv : env := mkEnv (fun n _ _ _ => match n with HealthRegionBegin => Some (of_int 5000, 0) | _ => Some (of_int 3, 0) end) (fun _ _ => None).
Definition ex_rtx : list ix := [ex_rbegin; ex_place; ex_rend].
Definition ex_r1 : world := get ex_w (region_begin ex_renv ex_rtx 0 ex_w 7 50 [100]).
Definition ex_r2 : world := get ex_w (region_end ex_renv ex_r1 50 [100]).
Lemma ex_r1_own : own_vaults ex_r1.
Proof.
  assert (E : w_banks ex_r1 = w_banks ex_w).
  { unfold ex_r1. destruct (region_begin ex_renv ex_rtx 0 ex_w 7 50 [100]) as [x|] eqn:E; [|reflexivity].
    apply region_begin_spec in E. destruct E as (? & ? & ? & ? & ? & ? & _ & _ & _ & _ & _ & _ & _ & _ & _ & _ & ->). reflexivity. }
  apply (own_eq _ _ E ex_w_own).
Qed.
Example C40_ex : accepted ex_renv ex_rtx ex_w ex_r2 /\ (forall k a, w_accts ex_w k = Some a -> m_region a = false) /\
  match w_accts ex_r1 50 with Some a => m_region a | None => false end = true.
Proof.
  split; [|split; [|vm_compute; reflexivity]].
  2:{ intros k a. cbn [w_accts ex_w]. destruct (k =? 50); [|discriminate]. intros H. apply some_inj in H. subst. reflexivity. }
  unfold accepted. cbn [length ex_rtx].
  apply st_cons with (w1 := ex_r1).
  { apply (s_mango _ _ _ _ _ ex_rbegin); [reflexivity|reflexivity|].
    apply (x_region_begin _ _ _ _ _ _ 91 7 50 [100]); [reflexivity|reflexivity|]. apply get_some. vm_compute. reflexivity. }
  apply st_cons with (w1 := ex_r1).
  { apply (s_mango _ _ _ _ _ ex_place); [reflexivity|reflexivity|]. apply x_inner; [reflexivity|].
    split; [|intros k a H; congruence]. split; [|split; [|split; [exact ex_r1_own|reflexivity]]].
    - intros k b H. left. exists b. split; [exact H|]. repeat split; reflexivity.
    - intros k a H. left. exists a. split; [exact H|]. split; reflexivity. }
  apply st_cons with (w1 := ex_r2); [|apply st_nil].
  apply (s_mango _ _ _ _ _ ex_rend); [reflexivity|reflexivity|].
  apply (x_region_end _ _ _ _ _ _ 50 [100]); [reflexivity|reflexivity|]. apply get_some. vm_compute. reflexivity.
Qed.
Print Assumptions C40_regions_closed.
Print Assumptions C40_paired_and_checked.
Print Assumptions C40_no_calls_by_programs.
