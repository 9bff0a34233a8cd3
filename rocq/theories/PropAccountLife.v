(** C101, C102: closing accounts; sequence numbers. *)
From Coq Require Import List ZArith Lia Bool Arith.
From Verif Require Import OrderTree AccountSlots AccountSlotsSpec AccountSlotsInv PropAccountSlots Fixed Interest Bank GateTable AuthTable Auth AccountLife
  EventQueue PerpTypes PerpSystem PerpSpec PerpInv PerpSlots BookSideSpec BookSpec PerpLots.
From Verif Require PropPerp PropAuth Keys PerpSystem.
Import ListNotations.
Open Scope Z_scope.

(** ** C101: closing *)
Lemma inactive_filter {A} (f : A -> Z) l : (forall x, In x l -> f x = 65535) -> filter (fun x => negb (x =? 65535)) (map f l) = [].
Proof.
  induction l as [|x l IH]; intros H; [reflexivity|]. cbn [map filter]. rewrite (H x (or_introl eq_refl)). cbn [negb Z.eqb Pos.eqb]. apply IH. intros y Hy. exact (H y (or_intror Hy)).
Qed.
(** Outside testing groups an account is closed only when it is not being liquidated and has no token, spot or perp position; then it has
    no conditional swap either. *)
Theorem C101_empty : forall force liq k a, account_close false force liq a = Some tt -> reachable k a ->
  force = false /\ liq = false /\ open_tokens a = [] /\ open_serums a = [] /\ open_perps a = [] /\ open_swaps a = [].
Proof.
  intros force liq k a H R. unfold account_close in H. cbn [orb] in H. destruct force; cbn [negb guard] in H; [discriminate|]. destruct liq; cbn [negb guard] in H; [discriminate|].
  destruct (forallb _ (toks a)) eqn:T; cbn [guard] in H; [|discriminate]. destruct (forallb _ (sers a)) eqn:S; cbn [guard] in H; [|discriminate]. destruct (forallb _ (perps a)) eqn:P; cbn [guard] in H; [|discriminate].
  assert (OT : open_tokens a = []).
  { unfold open_tokens. apply inactive_filter. intros p I. rewrite forallb_forall in T. specialize (T p I). unfold t_active, idx_max in T. rewrite negb_involutive in T. lia. }
  split; [reflexivity|]. split; [reflexivity|]. split; [exact OT|]. split; [|split].
  - unfold open_serums. apply inactive_filter. intros p I. rewrite forallb_forall in S. specialize (S p I). unfold s_active, idx_max in S. rewrite negb_involutive in S. lia.
  - unfold open_perps. apply inactive_filter. intros p I. rewrite forallb_forall in P. specialize (P p I). unfold p_active, idx_max in P. rewrite negb_involutive in P. lia.
  - destruct (open_swaps a) as [|c r] eqn:E; [reflexivity|exfalso]. assert (I : In c (open_swaps a)) by (rewrite E; left; reflexivity).
    unfold open_swaps in I. apply filter_In in I as [I On]. apply In_nth_error in I as [i I].
    destruct (C64_closing_succeeds k a R) as (_ & _ & C3). destruct (C3 i c false false I On) as [a1 A1].
    assert (N : 0 < needed k a (c_buy c)).
    { unfold needed, times. rewrite E. cbn [map]. rewrite count_occ_cons_eq by reflexivity. lia. }
    pose proof (reachable_inv k a R) as [_ (_ & _ & _ & _ & SW)].
    destruct (C64_in_use_is_needed k a R) as [_ C2]. assert (RI : real_index (c_buy c)) by (apply nth_error_In in I; exact (proj1 (SW c I On))).
    specialize (C2 _ RI N). rewrite OT in C2. destruct C2.
Qed.
Print Assumptions C101_empty.

Lemma owned_zero pk L : (forall e, In e L -> 0 < l_quantity (snd e)) -> owned pk L = 0 -> forall e, In e L -> l_owner (snd e) <> pk.
Proof.
  induction L as [|x L IH]; intros H Z0 e I; [destruct I|]. rewrite owned_cons in Z0. pose proof (owned_pos pk L (fun e h => H e (or_intror h))) as P. pose proof (H x (or_introl eq_refl)) as Hx.
  destruct (Z.eqb_spec (l_owner (snd x)) pk) as [E|N]; [lia|]. destruct I as [<-|I]; [exact N|]. apply IH; [intros y Hy; apply H; right; exact Hy|lia|exact I].
Qed.
(** In every history of a perp market: an account that is closed has no order on the book, and no pending event is going to
    change an order of it (the taker's side of a fill can be pending: C48). *)
Theorem C101_no_orders : forall cap capq y pk y', reached cap capq y -> step y (OpClose pk) = Some y' ->
  (forall sd e, In e (resting sd (y_bk y)) -> l_owner (snd e) <> pk) /\
  (exists Q, q_iter (y_q y) = Some Q /\ forall ev, In ev Q -> fst (fst (PropPerp.target ev)) <> pk) /\
  (y_bk y', y_q y', y_mk y') = (y_bk y, y_q y, y_mk y) /\ (exists a, aget (y_accs y) pk = Some a) /\ aget (y_accs y') pk = None.
Proof.
  intros cap capq y pk y' R H. cbn [step] in H. destruct (aget (y_accs y) pk) as [a|] eqn:A; [|discriminate]. destruct (a_pos a) as [p|] eqn:P; [discriminate|]. injection H as <-. cbn [y_bk y_q y_mk y_accs].
  assert (PO : pos_of y pk = pos0) by (unfold pos_of, pos_in; rewrite A; unfold posn; rewrite P; reflexivity).
  destruct (PropPerp.reached_inv _ _ _ R) as (Q & n & HI & HQ & _). split; [|split; [|split; [reflexivity|split; [exists a; reflexivity|]]]].
  - intros sd. pose proof (iv_lots _ _ _ _ _ HI pk sd) as HL. rewrite PO in HL. destruct (iv_book _ _ _ _ _ HI sd) as (_ & _ & H2 & _).
    pose proof (owned_pos pk (resting sd (y_bk y)) (fun e He => proj1 (H2 e He))) as O1. pose proof (in_flight_pos sd pk Q (iv_qty _ _ _ _ _ HI)) as O2.
    apply owned_zero; [intros e He; exact (proj1 (H2 e He))|]. destruct sd; cbn [side_lots pos0 p_bids p_asks] in HL; lia.
  - exists Q. split; [exact HQ|]. intros ev I E. destruct (PropPerp.C48_event_parties_are_active _ _ _ _ R HQ ev I) as (b & q & B & C). rewrite E, A in B. injection B as <-. rewrite P in C. discriminate.
  - rewrite aget_adel, Z.eqb_refl. reflexivity.
Qed.
Print Assumptions C101_no_orders.

(** ** C102: sequence numbers *)
Definition is_check (k : akey) (x : qcall) : bool :=
  match c_ix (snd (fst x)), c_key (snd (fst x)) RAccount with Ix_sequence_check, [k'] => akey_eqb k k' | _, _ => false end.
Definition is_create (k : akey) (x : qcall) : bool :=
  match c_ix (snd (fst x)), c_key (snd (fst x)) RAccount with (Ix_account_create | Ix_account_create_v2), [k'] => akey_eqb k k' | _, _ => false end.
(** the number of sequence checks for account [k] in a history *)
Definition checks (k : akey) (l : list qcall) : Z := Z.of_nat (length (filter (is_check k) l)).
Definition seq_ok (s : qstate) : Prop := forall k, 0 <= qs_seq s k < 256.

Lemma put_seq_get q k n x : put_seq q k n x = if akey_eqb x k then n else q x. Proof. reflexivity. Qed.
Lemma qstep_auth s e c n s' : qstep s e c n = Some s' -> Auth.step e (qs_auth s) c = Some (qs_auth s').
Proof.
  unfold qstep. destruct (Auth.step e (qs_auth s) c) as [st|]; [|discriminate].
  destruct (c_ix c); try (intros E; injection E as <-; reflexivity); destruct (c_key c RAccount) as [|k [|k2 r]]; try (intros E; injection E as <-; reflexivity).
  destruct (sequence_check _ _) as [q|]; [|discriminate]. intros E; injection E as <-; reflexivity.
Qed.
Lemma qstep_seq s e c n s' k : qstep s e c n = Some s' -> seq_ok s -> is_create k (e, c, n) = false ->
  (is_check k (e, c, n) = true -> qs_seq s k = n /\ qs_seq s' k = (n + 1) mod 256) /\
  (is_check k (e, c, n) = false -> qs_seq s' k = qs_seq s k).
Proof.
  unfold qstep, is_create, is_check. cbn [fst snd]. destruct (Auth.step e (qs_auth s) c) as [st|]; [|discriminate]. intros H O.
  destruct (c_ix c); try (intros _; injection H as <-; split; [discriminate|reflexivity]); destruct (c_key c RAccount) as [|k1 [|k2 r]];
    try (intros _; injection H as <-; split; [discriminate|reflexivity]).
  - intros C. injection H as <-. split; [discriminate|]. intros _. cbn [qs_seq]. rewrite put_seq_get, C. reflexivity.
  - intros C. injection H as <-. split; [discriminate|]. intros _. cbn [qs_seq]. rewrite put_seq_get, C. reflexivity.
  - intros _. unfold sequence_check in H. destruct (Z.eqb_spec n (qs_seq s k1)) as [E|]; cbn [guard] in H; [|discriminate]. injection H as <-. cbn [qs_seq]. rewrite put_seq_get. split; intros C; rewrite C; [|reflexivity].
    assert (k = k1) as ->; [|subst n; auto]. unfold akey_eqb in C. destruct k, k1. cbn [fst snd] in C. apply andb_true_iff in C as [C1 C2]. apply Z.eqb_eq in C1, C2. subst. reflexivity.
Qed.
Lemma qstep_ok s e c n s' : qstep s e c n = Some s' -> seq_ok s -> seq_ok s'.
Proof.
  intros H O k. destruct (is_create k (e, c, n)) eqn:C.
  - revert H C. unfold qstep, is_create. cbn [fst snd]. destruct (Auth.step e (qs_auth s) c) as [st|]; [|discriminate].
    destruct (c_ix c); try discriminate; destruct (c_key c RAccount) as [|k1 [|k2 r]]; try discriminate; intros H C; injection H as <-; cbn [qs_seq]; rewrite put_seq_get, C; lia.
  - destruct (qstep_seq _ _ _ _ _ _ H O C) as [A B]. destruct (is_check k (e, c, n)).
    + destruct (A eq_refl) as [_ ->]. apply Z.mod_pos_bound. lia.
    + rewrite (B eq_refl). apply O.
Qed.
Lemma qrun_seq l : forall s s' k, qrun s l = Some s' -> seq_ok s -> forallb (fun x => negb (is_create k x)) l = true ->
  qs_seq s' k = (qs_seq s k + checks k l) mod 256.
Proof.
  induction l as [|[[e c] n] l IH]; intros s s' k H O NC; cbn [qrun] in H.
  - injection H as <-. unfold checks. cbn [filter length Z.of_nat]. rewrite Z.add_0_r, Z.mod_small by apply O. reflexivity.
  - cbn [forallb] in NC. apply andb_true_iff in NC as [NC1 NC2]. apply negb_true_iff in NC1. destruct (qstep s e c n) as [s1|] eqn:E; [|discriminate].
    rewrite (IH _ _ _ H (qstep_ok _ _ _ _ _ E O) NC2). destruct (qstep_seq _ _ _ _ _ _ E O NC1) as [A B]. unfold checks. cbn [filter]. destruct (is_check k (e, c, n)).
    + destruct (A eq_refl) as [<- ->]. cbn [length]. rewrite Nat2Z.inj_succ, Zplus_mod_idemp_l. f_equal. lia.
    + rewrite (B eq_refl). reflexivity.
Qed.
(** In every history without re-creation of the account, the number expected next is the one at the start plus the number of successful
    checks, modulo 256. *)
Theorem C102_counts : forall l s s' k, qrun s l = Some s' -> seq_ok s -> forallb (fun x => negb (is_create k x)) l = true ->
  qs_seq s' k = (qs_seq s k + checks k l) mod 256.
Proof. intros l s s' k. apply qrun_seq. Qed.
Print Assumptions C102_counts.

(** A check succeeds only for the owner's signature on an account that is not frozen, and only with the number expected. *)
Theorem C102_owner : forall s e c n s' k, qstep s e c n = Some s' -> seq_ok s -> is_check k (e, c, n) = true ->
  n = qs_seq s k /\ qs_seq s' k = (n + 1) mod 256 /\ (forall k', k' <> k -> qs_seq s' k' = qs_seq s k') /\
  exists a, qs_auth s k = Some a /\ au_owner a = c_signer c /\ In (au_owner a) (e_signers e) /\ au_frozen a < e_now e.
Proof.
  intros s e c n s' k H O C.
  assert (K : c_ix c = Ix_sequence_check /\ c_key c RAccount = [k]).
  { unfold is_check in C. cbn [fst snd] in C. destruct (c_ix c); try discriminate. destruct (c_key c RAccount) as [|k1 [|]]; try discriminate. split; [reflexivity|].
    unfold akey_eqb in C. destruct k, k1. cbn [fst snd] in C. apply andb_true_iff in C as [C1 C2]. apply Z.eqb_eq in C1, C2. subst. reflexivity. }
  destruct K as [K1 K2]. pose proof (qstep_auth _ _ _ _ _ H) as A.
  assert (NC : is_create k (e, c, n) = false) by (unfold is_create; cbn [fst snd]; rewrite K1; reflexivity).
  destruct (qstep_seq _ _ _ _ _ _ H O NC) as [B _]. destruct (B C) as [B1 B2]. split; [symmetry; exact B1|]. split; [exact B2|]. split.
  - intros k' N. unfold qstep in H. rewrite A, K1, K2 in H. destruct (sequence_check _ _) as [q|]; [|discriminate]. injection H as <-. cbn [qs_seq]. rewrite put_seq_get.
    destruct (akey_eqb k' k) eqn:E; [|reflexivity]. exfalso. apply N. unfold akey_eqb in E. destruct k, k'. cbn [fst snd] in E. apply andb_true_iff in E as [E1 E2]. apply Z.eqb_eq in E1, E2. subst. reflexivity.
  - unfold Auth.step in A. rewrite K1 in A. cbn [always_fails negb guard touched forallb] in A. unfold role_ok in A. cbn [t_role] in A. rewrite K2 in A. cbn [forallb length Nat.eqb] in A.
    unfold touch_ok in A. cbn [t_who t_oper] in A. destruct (qs_auth s k) as [a|]; [|discriminate]. exists a. split; [reflexivity|].
    destruct (operational e a) eqn:OP; cbn [andb guard] in A; [|discriminate]. destruct (Z.eqb_spec (au_owner a) (c_signer c)) as [EO|]; cbn [andb guard] in A; [|discriminate].
    destruct (signed e (c_signer c)) eqn:SG; cbn [andb guard] in A; [|discriminate]. split; [exact EO|]. unfold signed in SG. apply existsb_exists in SG as (x & I & EX). apply Z.eqb_eq in EX. subst x. rewrite EO. split; [exact I|].
    unfold operational in OP. lia.
Qed.
Print Assumptions C102_owner.

(** Two successful checks with the same number on an account that was not re-created in between are a multiple of 256 checks apart: a
    transaction that is guarded by a check and executed cannot be replayed before 255 others have been executed. *)
Theorem C102_no_replay : forall e1 c1 e2 c2 n mid s s' k, qrun s ((e1, c1, n) :: mid ++ [(e2, c2, n)]) = Some s' -> seq_ok s ->
  is_check k (e1, c1, n) = true -> is_check k (e2, c2, n) = true -> forallb (fun x => negb (is_create k x)) mid = true ->
  exists m, 0 <= m /\ checks k mid = 255 + 256 * m.
Proof.
  intros e1 c1 e2 c2 n mid s s' k H O C1 C2 NC. cbn [qrun] in H. destruct (qstep s e1 c1 n) as [s1|] eqn:E1; [|discriminate].
  assert (R : exists s2, qrun s1 mid = Some s2 /\ exists s3, qstep s2 e2 c2 n = Some s3).
  { clear - H. revert s1 H. induction mid as [|[[e c] m] mid IH]; intros s1 H; cbn [app qrun] in *.
    - exists s1. split; [reflexivity|]. destruct (qstep s1 e2 c2 n) as [s3|]; [eauto|discriminate].
    - destruct (qstep s1 e c m) as [s4|]; [|discriminate]. exact (IH _ H). }
  destruct R as (s2 & R2 & s3 & E2). pose proof (qstep_ok _ _ _ _ _ E1 O) as O1.
  assert (O2 : seq_ok s2).
  { clear - R2 O1. revert s1 R2 O1. induction mid as [|[[e c] m] mid IH]; intros s1 R O; cbn [qrun] in R; [injection R as <-; exact O|].
    destruct (qstep s1 e c m) as [s4|] eqn:E; [|discriminate]. exact (IH _ R (qstep_ok _ _ _ _ _ E O)). }
  destruct (C102_owner _ _ _ _ _ _ E1 O C1) as (A1 & A2 & _). destruct (C102_owner _ _ _ _ _ _ E2 O2 C2) as (B1 & _).
  pose proof (qrun_seq _ _ _ _ R2 O1 NC) as Q. rewrite A2, Zplus_mod_idemp_l, <- B1 in Q. pose proof (O k) as Ok. rewrite <- A1 in Ok.
  assert (0 <= checks k mid) by (unfold checks; lia). pose proof (Z.div_mod (n + 1 + checks k mid) 256 ltac:(lia)) as D. exists ((n + 1 + checks k mid) / 256 - 1).
  rewrite <- Q in D. assert (1 <= (n + 1 + checks k mid) / 256) by (apply Z.div_le_lower_bound; lia). lia.
Qed.
Print Assumptions C102_no_replay.

(** Closing an account and creating it again starts at zero again: the owner's old guarded transactions can be executed once more. *)
Definition exq_create : qcall := (mkTenv 100 [1] 50, mkCall Ix_account_create_v2 (PropAuth.at_acct (1, 0)) 1 ANone, 0).
Definition exq_check (n : Z) : qcall := (mkTenv 150 [1] 50, mkCall Ix_sequence_check (PropAuth.at_acct (1, 0)) 1 ANone, n).
Definition exq_close : qcall := (mkTenv 160 [1] 50, mkCall Ix_account_close (PropAuth.at_acct (1, 0)) 1 ANone, 0).
Definition exq0 : qstate := mkQS (fun _ => None) (fun _ => 0).
Theorem C102_recreate_refuted : exists s s' mid, qrun exq0 [exq_create] = Some s /\ qrun s (exq_check 0 :: mid ++ [exq_check 0]) = Some s' /\ checks (1, 0) mid = 0.
Proof. eexists _, _, [exq_close; exq_create]. split; [reflexivity|]. split; reflexivity. Qed.
Print Assumptions C102_recreate_refuted.

(** ** examples *)
(** 256 checks and once more number 0 *)
Example C102_ex : exists s s', qrun exq0 [exq_create] = Some s /\ seq_ok s /\
  qrun s (exq_check 0 :: map (fun i => exq_check (Z.of_nat i)) (seq 1 255) ++ [exq_check 0]) = Some s' /\ qs_seq s' (1, 0) = 1 /\
  checks (1, 0) (map (fun i => exq_check (Z.of_nat i)) (seq 1 255)) = 255 /\ qrun s [exq_check 1] = None /\
  qrun s [(mkTenv 150 [7] 50, mkCall Ix_sequence_check (PropAuth.at_acct (1, 0)) 7 ANone, 0)] = None.
Proof.
  eexists _, _. split; [reflexivity|]. split; [intros k; unfold qs_seq, put_seq; destruct (akey_eqb _ _); cbn; lia|]. split; [vm_compute; reflexivity|]. do 3 (split; [vm_compute; reflexivity|]). vm_compute; reflexivity.
Qed.
(** a position opened and closed again; a conditional swap keeps an account open *)
Definition exl_ops : list aop := [OEnsure 3; OSetTok 0 700; OSwapCreate 3 4 1; OSwapClose 0 0 false true; OClose 0].
Example C101_ex : reachable ex_k (arun ex_k (new_acct 3 1 1 1) exl_ops) /\ account_close false false false (arun ex_k (new_acct 3 1 1 1) exl_ops) = Some tt /\
  account_close false false false (arun ex_k (new_acct 3 1 1 1) (firstn 3 exl_ops)) = None /\
  account_close false false true (arun ex_k (new_acct 3 1 1 1) exl_ops) = None /\ account_close false true false (arun ex_k (new_acct 3 1 1 1) exl_ops) = None.
Proof.
  split; [exists 3%nat, 1%nat, 1%nat, 1%nat, exl_ops; split; [|reflexivity]; repeat constructor; cbn; unfold real_index; lia|]. do 3 (split; [vm_compute; reflexivity|]). vm_compute; reflexivity.
Qed.
(** account 1 placed an order, cancelled it and left the market; account 2's order still rests; before, account 1 could not be closed *)
Definition exl_mkt : list op := [OpCreate 1 4; OpCreate 2 4; PropPerp.ex_place 2 Keys.Bid 20 2; PropPerp.ex_place 1 Keys.Bid 20 2; OpCancelClient 1 77; OpDeactivate 1].
Example C101_market_ex : exists y y', reached 16 8 y /\ step y (OpClose 1) = Some y' /\ length (resting Keys.Bid (y_bk y)) = 1%nat /\
  match run_ops (PropPerp.ex_fresh 0 0 0) (firstn 4 exl_mkt) with Some y4 => step y4 (OpClose 1) = None /\ length (resting Keys.Bid (y_bk y4)) = 2%nat | None => False end.
Proof.
  destruct (run_ops (PropPerp.ex_fresh 0 0 0) exl_mkt) as [y|] eqn:E; [|vm_compute in E; discriminate].
  pose proof (PropPerp.ex_reached 0 0 0 exl_mkt y ltac:(unfold exl_mkt; repeat (apply Forall_cons; [first [apply PropPerp.ex_place_wf; lia | exact I]|]); apply Forall_nil) E) as Hr.
  vm_compute in E. injection E as <-. eexists _, _. split; [exact Hr|]. split; [vm_compute; reflexivity|]. split; [vm_compute; reflexivity|]. vm_compute. split; reflexivity.
Qed.
