(** What a flash loan end does to vaults, banks and positions. *)
From Coq Require Import List ZArith Lia Bool Arith.
From Verif Require Import Keys Fixed PerpTypes Interest InterestFacts Bank BankSystem LiqState TxRules TxFacts.
Import ListNotations.
Open Scope Z_scope.

Definition tok_amount (w : world) (k : Z) : Z := match w_tokens w k with Some t => ta_amount t | None => 0 end.
(** what is taken from the token account *)
Definition repaid (w : world) (b : fbank) (tk : Z) : Z := Z.max 0 (tok_amount w tk - fb_initial b).

Lemma transfer_tokens w f t n w' : transfer w f t n = Some w' -> f <> t ->
  tok_amount w' f = tok_amount w f - n /\ tok_amount w' t = tok_amount w t + n /\
  (forall x, x <> f -> x <> t -> w_tokens w' x = w_tokens w x).
Proof.
  unfold transfer, tok_amount. intros H N. inv_opt H. apply some_inj in H. subst. unfold set_tokens, put in *; cbn [w_tokens].
  rewrite Z.eqb_refl. apply Z.eqb_neq in N as N1. rewrite N1. rewrite Z.eqb_refl. cbn [ta_amount].
  assert (N2 : (t =? f) = false) by (apply Z.eqb_neq; auto). rewrite N2 in O0. rewrite O0.
  split; [reflexivity|]. split; [reflexivity|]. intros x H1 H2. apply Z.eqb_neq in H1, H2. rewrite H1, H2. reflexivity.
Qed.

Lemma NoDup_app_neq {A} (l1 l2 : list A) i j x y :
  NoDup (l1 ++ l2) -> nth_error l1 i = Some x -> nth_error l2 j = Some y -> x <> y.
Proof.
  intros N H1 H2 E. subst y. apply nth_error_In in H1, H2. induction l1 as [|z l IH]; [contradiction|].
  cbn in N. inversion N as [|? ? N1 N2]. destruct H1 as [->|H1]; [apply N1, in_or_app; right; exact H2|apply IH; assumption].
Qed.
Lemma NoDup_app_l {A} (l1 l2 : list A) : NoDup (l1 ++ l2) -> NoDup l1.
Proof. induction l1 as [|x l IH]; cbn; intros N; [constructor|]. inversion N. constructor; [|apply IH; assumption]. intros I; apply H1, in_or_app; auto. Qed.
Lemma NoDup_app_r {A} (l1 l2 : list A) : NoDup (l1 ++ l2) -> NoDup l2.
Proof. induction l1 as [|x l IH]; cbn; intros N; [exact N|]. inversion N. apply IH; assumption. Qed.
Lemma NoDup_nth_eq {A} (l : list A) i j x : NoDup l -> nth_error l i = Some x -> nth_error l j = Some x -> i = j.
Proof.
  intros N H1 H2. apply (proj1 (NoDup_nth_error l) N); [apply nth_error_Some; congruence|congruence].
Qed.

Lemma end_scan_tokens group vaults tokens ais : forall w a rate w' a' rate' L,
  end_scan w a group vaults tokens rate ais = Some (w', a', rate', L) ->
  NoDup ais -> own_vaults w -> NoDup (vaults ++ tokens) ->
  NoDup (map c_bank L) /\ NoDup (map c_vault L) /\
  (forall x, (forall c, In c L -> nth_error vaults (c_vault c) <> Some x /\ nth_error tokens (c_vault c) <> Some x) ->
     w_tokens w' x = w_tokens w x) /\
  (forall c, In c L -> exists b tk, w_banks w (c_bank c) = Some b /\ nth_error tokens (c_vault c) = Some tk /\
     c_amount c = of_int (repaid w b tk - fb_approved b) /\
     tok_amount w' (fb_vault b) = tok_amount w (fb_vault b) + repaid w b tk /\
     tok_amount w' tk = tok_amount w tk - repaid w b tk).
Proof.
  induction ais as [|k ais IH]; cbn [end_scan]; intros w a rate w' a' rate' L H Nd Ow Nt.
  - apply some_inj in H. injection H as <- <- <- <-. cbn [map]. split; [constructor|]. split; [constructor|]. split; [auto|]. intros c [].
  - inversion Nd as [|? ? Nk Nd']; subst.
    destruct (w_banks w k) as [b|] eqn:B.
    2:{ apply some_inj in H. injection H as <- <- <- <-. cbn [map]. split; [constructor|]. split; [constructor|]. split; [auto|]. intros c []. }
    inv_opt H. destruct (find_index (fb_vault b) vaults) as [vi|] eqn:V; [|apply IH in H; assumption].
    inv_opt H. apply some_inj in H. injection H as <- <- <- <-. apply find_index_spec in V.
    assert (Nvt : z <> fb_vault b) by (intros E; apply (NoDup_app_neq _ _ _ _ _ _ Nt V O); congruence).
    assert (A0 : tok_amount w z = ta_amount t) by (unfold tok_amount; rewrite O0; reflexivity).
    assert (F : w_banks w0 = w_banks w /\ tok_amount w0 z = tok_amount w z - repaid w b z /\
                tok_amount w0 (fb_vault b) = tok_amount w (fb_vault b) + repaid w b z /\
                forall x, x <> z -> x <> fb_vault b -> w_tokens w0 x = w_tokens w x).
    { unfold repaid. rewrite A0. destruct (Z.ltb_spec 0 (ta_amount t - fb_initial b)).
      - pose proof (transfer_frame _ _ _ _ _ O2) as (f1 & _). apply transfer_tokens in O2; [|exact Nvt].
        destruct O2 as (o1 & o2 & o3). split; [exact f1|]. rewrite o1, o2, A0. split; [lia|]. split; [lia|exact o3].
      - apply some_inj in O2. subst w0. rewrite A0. split; [reflexivity|]. split; [lia|]. split; [lia|]. auto. }
    destruct F as (f1 & f2 & f3 & f4).
    pose proof (end_scan_frame _ _ _ _ _ _ _ _ _ _ _ O3) as (s1 & _ & _ & _ & s5).
    apply IH in O3; [|exact Nd'|apply (own_eq _ _ f1 Ow)|exact Nt]. destruct O3 as (h1 & h2 & h3 & h4).
    assert (Nv : forall c, In c l -> c_vault c <> vi).
    { intros c Ic E. destruct (s5 c Ic) as (b' & r1 & r2 & _ & _ & r5). rewrite f1 in r1.
      rewrite E, V in r2. apply some_inj in r2. apply Nk. rewrite <- (Ow _ _ _ _ r1 B (eq_sym r2)). exact r5. }
    assert (Nb : forall c, In c l -> c_bank c <> k).
    { intros c Ic E. destruct (s5 c Ic) as (b' & _ & _ & _ & _ & r5). rewrite E in r5. contradiction. }
    assert (Nx : forall c, In c l -> nth_error vaults (c_vault c) <> Some (fb_vault b) /\
                                     nth_error tokens (c_vault c) <> Some (fb_vault b) /\
                                     nth_error vaults (c_vault c) <> Some z /\ nth_error tokens (c_vault c) <> Some z).
    { intros c Ic. split; [|split; [|split]]; intros E.
      - apply (Nv c Ic). apply (NoDup_nth_eq vaults _ _ _ (NoDup_app_l _ _ Nt) E V).
      - apply (NoDup_app_neq _ _ _ _ _ _ Nt V E). reflexivity.
      - apply (NoDup_app_neq _ _ _ _ _ _ Nt E O). reflexivity.
      - apply (Nv c Ic). apply (NoDup_nth_eq tokens _ _ _ (NoDup_app_r _ _ Nt) E O). }
    split; [cbn [map c_bank]; constructor; [|exact h1]; intros I; apply in_map_iff in I as (c & E & I); apply (Nb c I E)|].
    split; [cbn [map c_vault]; constructor; [|exact h2]; intros I; apply in_map_iff in I as (c & E & I); apply (Nv c I E)|].
    split.
    + intros x Hx. rewrite h3.
      * apply f4; intros E; subst x; destruct (Hx _ (or_introl eq_refl)) as (q1 & q2); cbn [c_vault] in *; congruence.
      * intros c Ic. apply Hx. right. exact Ic.
    + intros c [<-|Ic].
      * cbn [c_bank c_vault c_amount]. exists b, z. split; [exact B|]. split; [exact O|]. split; [|split].
        -- unfold repaid. rewrite A0. unfold of_int. destruct (Z.ltb_spec 0 (ta_amount t - fb_initial b)).
           ++ rewrite Z.max_r by lia. lia.
           ++ rewrite Z.max_l by lia. lia.
        -- unfold tok_amount at 1. rewrite h3.
           ++ exact f3.
           ++ intros c Ic. destruct (Nx c Ic) as (q1 & q2 & _). auto.
        -- unfold tok_amount at 1. rewrite h3.
           ++ exact f2.
           ++ intros c Ic. destruct (Nx c Ic) as (_ & _ & q1 & q2). auto.
      * destruct (h4 c Ic) as (b' & tk & r1 & r2 & r3 & r4 & r5). rewrite f1 in r1.
        destruct (s5 c Ic) as (b2 & y1 & y2 & _). rewrite f1 in y1. rewrite r1 in y1. apply some_inj in y1. subst b2.
        destruct (Nx c Ic) as (q1 & q2 & q3 & q4).
        assert (T1 : tok_amount w0 tk = tok_amount w tk) by (unfold tok_amount; rewrite f4; [reflexivity| |]; intros E; subst tk; congruence).
        assert (T2 : tok_amount w0 (fb_vault b') = tok_amount w (fb_vault b')) by
          (unfold tok_amount; rewrite f4; [reflexivity| |]; intros E; rewrite E in y2; congruence).
        assert (T3 : repaid w0 b' tk = repaid w b' tk) by (unfold repaid; rewrite T1; reflexivity).
        rewrite T1, T3 in *. rewrite T2 in *. exists b', tk. auto.
Qed.

(** ** positions *)
Definition share (l : list (Z * tpos)) (t : Z) : Z := match pos_get l t with Some p => t_ix p | None => 0 end.
Lemma pos_get_set l t p u : pos_get (pos_set l t p) u = if u =? t then (match pos_get l t with Some _ => Some p | None => None end) else pos_get l u.
Proof.
  induction l as [|[k q] r IH]; cbn [pos_set pos_get]; [destruct (u =? t); reflexivity|].
  destruct (k =? t) eqn:E; cbn [pos_get].
  - apply Z.eqb_eq in E. subst. destruct (u =? t) eqn:E2; [apply Z.eqb_eq in E2; subst; rewrite Z.eqb_refl; reflexivity|].
    rewrite (Z.eqb_sym t u), E2. reflexivity.
  - rewrite IH. destruct (k =? u) eqn:E3; [|reflexivity]. apply Z.eqb_eq in E3. subst. rewrite E. reflexivity.
Qed.
Lemma pos_get_none l t : ~ In t (map fst l) -> pos_get l t = None.
Proof.
  induction l as [|[k q] r IH]; cbn [map fst pos_get]; intros H; [reflexivity|].
  destruct (k =? t) eqn:E; [apply Z.eqb_eq in E; subst; destruct H; left; reflexivity|]. apply IH. intros I; apply H; right; exact I.
Qed.
Lemma pos_get_del l t u : NoDup (map fst l) -> pos_get (pos_del l t) u = if u =? t then None else pos_get l u.
Proof.
  induction l as [|[k q] r IH]; cbn [pos_del pos_get map fst]; intros N; [destruct (u =? t); reflexivity|].
  inversion N as [|? ? N1 N2]; subst. destruct (k =? t) eqn:E; cbn [pos_get].
  - apply Z.eqb_eq in E. subst. destruct (u =? t) eqn:E2.
    + apply Z.eqb_eq in E2. subst. apply pos_get_none, N1.
    + rewrite (Z.eqb_sym t u), E2. reflexivity.
  - rewrite IH by assumption. destruct (k =? u) eqn:E3; [|reflexivity]. apply Z.eqb_eq in E3. subst. rewrite E. reflexivity.
Qed.
Lemma pos_set_keys l t p : map fst (pos_set l t p) = map fst l.
Proof. induction l as [|[k q] r IH]; cbn [pos_set map fst]; [reflexivity|]. destruct (k =? t); cbn [map fst]; [reflexivity|f_equal; exact IH]. Qed.
Lemma pos_del_in l t u : In u (map fst (pos_del l t)) -> In u (map fst l).
Proof.
  induction l as [|[k q] r IH]; cbn [pos_del map fst]; [auto|]. destruct (k =? t); cbn [map fst]; [right; assumption|].
  intros [->|I]; [left; reflexivity|right; apply IH, I].
Qed.
Lemma pos_del_keys l t : NoDup (map fst l) -> NoDup (map fst (pos_del l t)).
Proof.
  induction l as [|[k q] r IH]; cbn [pos_del map fst]; intros N; [constructor|]. inversion N as [|? ? N1 N2]; subst.
  destruct (k =? t); cbn [map fst]; [exact N2|]. constructor; [|apply IH, N2]. intros I. apply N1, (pos_del_in _ _ _ I).
Qed.
Lemma deactivate_all_spec D : forall l l', deactivate_all l D = Some l' -> NoDup (map fst l) ->
  forall u, pos_get l' u = if existsb (Z.eqb u) D then None else pos_get l u.
Proof.
  induction D as [|t D IH]; cbn [deactivate_all existsb]; intros l l' H N u; [apply some_inj in H; subst; reflexivity|].
  inv_opt H. rewrite (IH _ _ H (pos_del_keys _ _ N)), pos_get_del by exact N.
  destruct (u =? t); cbn [orb]; destruct (existsb _ D); reflexivity.
Qed.
Lemma ensure_pos_share a t a' : ensure_pos a t = Some a' -> NoDup (map fst (m_toks a)) ->
  NoDup (map fst (m_toks a')) /\ (forall u, share (m_toks a') u = share (m_toks a) u) /\ m_group a' = m_group a.
Proof.
  unfold ensure_pos. intros H N. destruct (pos_get (m_toks a) t) as [p|] eqn:E; [apply some_inj in H; subst; auto|].
  destruct (Nat.ltb _ _); [|discriminate]. apply some_inj in H. subst a'. cbn [m_toks set_toks m_group].
  assert (A : forall u, pos_get (m_toks a ++ [(t, mkTpos 0 0)]) u =
     match pos_get (m_toks a) u with Some p => Some p | None => if t =? u then Some (mkTpos 0 0) else None end).
  { intros u. clear. induction (m_toks a) as [|[k q] r IH]; cbn [app pos_get]; [reflexivity|]. destruct (k =? u); [reflexivity|exact IH]. }
  split; [|split; [|reflexivity]].
  - rewrite map_app. cbn [map fst].
    assert (NI : ~ In t (map fst (m_toks a))).
    { clear - E. induction (m_toks a) as [|[k q] r IH]; cbn [map fst pos_get] in *; [auto|].
      destruct (k =? t) eqn:E1; [discriminate|]. intros [->|I]; [rewrite Z.eqb_refl in E1; discriminate|apply IH; assumption]. }
    revert N NI. generalize (map fst (m_toks a)). clear. intros l N NI. induction l as [|x l IH]; cbn [app]; [constructor; [auto|constructor]|].
    inversion N; subst. constructor.
    + intros I. apply in_app_or in I as [I|[->|[]]]; [contradiction|apply NI; left; reflexivity].
    + apply IH; [assumption|]. intros I; apply NI; right; exact I.
  - intros u. unfold share. rewrite A. destruct (pos_get (m_toks a) u); [reflexivity|]. destruct (t =? u); reflexivity.
Qed.
Lemma end_scan_share group vaults tokens ais : forall w a rate w' a' rate' L,
  end_scan w a group vaults tokens rate ais = Some (w', a', rate', L) -> NoDup (map fst (m_toks a)) ->
  NoDup (map fst (m_toks a')) /\ (forall u, share (m_toks a') u = share (m_toks a) u) /\ rate <= rate' /\
  (forall c b, In c L -> w_banks w (c_bank c) = Some b -> fb_swap_rate b <= rate') /\
  (rate' = rate \/ exists c b, In c L /\ w_banks w (c_bank c) = Some b /\ rate' = fb_swap_rate b).
Proof.
  induction ais as [|k ais IH]; cbn [end_scan]; intros w a rate w' a' rate' L H Nd.
  - apply some_inj in H. injection H as <- <- <- <-. split; [exact Nd|]. split; [reflexivity|]. split; [lia|]. split; [intros c b []|auto].
  - destruct (w_banks w k) as [b|] eqn:B.
    2:{ apply some_inj in H. injection H as <- <- <- <-. split; [exact Nd|]. split; [reflexivity|]. split; [lia|]. split; [intros c b []|auto]. }
    inv_opt H. destruct (find_index (fb_vault b) vaults) as [vi|] eqn:V; [|apply IH in H; assumption].
    inv_opt H. apply some_inj in H. injection H as <- <- <- <-.
    assert (F : w_banks w0 = w_banks w)
      by (destruct (0 <? ta_amount t - fb_initial b); [apply transfer_frame in O2; apply O2|apply some_inj in O2; subst; reflexivity]).
    destruct (ensure_pos_share _ _ _ O1 Nd) as (n1 & n2 & _). apply IH in O3; [|exact n1].
    destruct O3 as (h1 & h2 & h3 & h4 & h5). rewrite F in *.
    split; [exact h1|]. split; [intros uu; rewrite h2; apply n2|]. split; [lia|]. split.
    + intros c b' [<-|I] Hb; [cbn [c_bank] in Hb; rewrite B in Hb; apply some_inj in Hb; subst; lia|apply (h4 c b' I Hb)].
    + destruct h5 as [->|(c & b' & i1 & i2 & i3)]; [|right; exists c, b'; split; [right; exact i1|auto]].
      destruct (Z_le_gt_dec (fb_swap_rate b) rate) as [G2|G2]; [left; lia|right].
      eexists _, b. split; [left; reflexivity|]. split; [exact B|]. lia.
Qed.

(** one change is one [BCharge] call on the bank *)
Definition fees_of (b : fbank) (n : fx) (ty : loan_type) (rate amount : fx) : fx := loan_fee b n + swap_fee ty rate amount.
Lemma fees_nonneg b n ty rate amount : 0 <= fb_approved b -> 0 <= b_lof (fb_bank b) -> 0 <= rate -> 0 <= fees_of b n ty rate amount.
Proof.
  intros A B R. unfold fees_of, loan_fee, swap_fee.
  assert (0 <= of_int (fb_approved b)) by (unfold of_int; pose proof fone_pos; nia).
  assert (0 <= fmul (if 0 <? n then Z.max (of_int (fb_approved b) - n) 0 else of_int (fb_approved b)) (b_lof (fb_bank b))).
  { apply fmul_nonneg; [|exact B]. destruct (0 <? n); lia. }
  destruct ty; try lia. destruct (Z.ltb_spec amount 0); [|lia].
  assert (0 <= fmul (- amount) rate) by (apply fmul_nonneg; lia). lia.
Qed.
Lemma apply_change_spec w a ty rate c price w' a' act :
  apply_change w a ty rate c price = Some (w', a', act) ->
  (forall b n, w_banks w (c_bank c) = Some b -> 0 <= fees_of b n ty rate (c_amount c)) ->
  exists b p x2 p2, w_banks w (c_bank c) = Some b /\ pos_get (m_toks a) (c_index c) = Some p /\
    bank_op (fb_bank b) p (BCharge (c_amount c) (fees_of b (native (fb_bank b) p) ty rate (c_amount c)) false (w_now w))
      = Some (x2, p2, act, c_amount c) /\
    w' = put_bank w (c_bank c) (set_flash (set_fbank b x2) 0 U64_MAX) /\
    m_toks a' = pos_set (m_toks a) (c_index c) p2.
Proof.
  unfold apply_change. intros H F. inv_opt H. apply some_inj in H. injection H as <- <- <-.
  exists f, t, b0, t0. split; [reflexivity|]. split; [reflexivity|]. split; [|auto].
  unfold bank_op. specialize (F f (native (fb_bank f) t) eq_refl). unfold fees_of in *.
  rewrite (proj2 (Z.leb_le _ _) F). cbn [guard]. rewrite Z.add_assoc.
  replace (c_amount c - (loan_fee f (native (fb_bank f) t) + swap_fee ty rate (c_amount c)))
    with (c_amount c - loan_fee f (native (fb_bank f) t) - swap_fee ty rate (c_amount c)) by lia.
  unfold change_without_fee in O1.
  destruct (0 <=? _); rewrite O1; reflexivity.
Qed.
Lemma apply_changes_spec ty rate L : forall w a w' a' D,
  apply_changes w a ty rate L = Some (w', a', D) ->
  (forall k b n x, w_banks w k = Some b -> 0 <= fees_of b n ty rate x) ->
  NoDup (map c_bank (map fst L)) -> NoDup (map c_index (map fst L)) ->
  map fst (m_toks a') = map fst (m_toks a) /\
  (forall u, ~ In u (map c_index (map fst L)) -> pos_get (m_toks a') u = pos_get (m_toks a) u /\ ~ In u D) /\
  (forall c, In c (map fst L) -> exists b p x2 p2 act, w_banks w (c_bank c) = Some b /\ pos_get (m_toks a) (c_index c) = Some p /\
    bank_op (fb_bank b) p (BCharge (c_amount c) (fees_of b (native (fb_bank b) p) ty rate (c_amount c)) false (w_now w))
      = Some (x2, p2, act, c_amount c) /\
    w_banks w' (c_bank c) = Some (set_flash (set_fbank b x2) 0 U64_MAX) /\
    pos_get (m_toks a') (c_index c) = Some p2 /\ (In (c_index c) D -> act = false)).
Proof.
  induction L as [|[c price] L IH]; cbn [apply_changes map fst]; intros w a w' a' D H F N1 N2.
  - apply some_inj in H. injection H as <- <- <-. split; [reflexivity|]. split; [auto|]. intros c [].
  - inversion N1 as [|? ? M1 N1']; subst. inversion N2 as [|? ? M2 N2']; subst. inv_opt H. apply some_inj in H. injection H as <- <- <-.
    pose proof (apply_changes_frame _ _ _ _ _ _ _ _ O0) as (_ & _ & _ & _ & _ & _ & _ & _ & k1 & _).
    apply apply_change_spec in O; [|intros; eapply F; eassumption].
    destruct O as (b1 & pp1 & x2 & pp2 & e1 & e2 & e3 & e4 & e5).
    assert (Hw : forall k, k <> c_bank c -> w_banks w0 k = w_banks w k).
    { intros k Hk. subst w0. unfold put_bank, put; cbn [w_banks]. apply Z.eqb_neq in Hk. rewrite Hk. reflexivity. }
    assert (Hn : w_now w0 = w_now w) by (subst w0; reflexivity).
    assert (Hc : w_banks w0 (c_bank c) = Some (set_flash (set_fbank b1 x2) 0 U64_MAX)).
    { subst w0. unfold put_bank, put; cbn [w_banks]. rewrite Z.eqb_refl. reflexivity. }
    (* the bank of [c] is not touched again *)
    assert (Hk : forall k L0 w a w' a' D, apply_changes w a ty rate L0 = Some (w', a', D) -> ~ In k (map c_bank (map fst L0)) ->
      w_banks w' k = w_banks w k).
    { clear. intros k L0. induction L0 as [|[c price] L IH]; cbn [apply_changes map fst]; intros w a w' a' D H N.
      - apply some_inj in H. injection H as <- <- <-. reflexivity.
      - inv_opt H. apply some_inj in H. injection H as <- <- <-. apply apply_change_frame in O.
        destruct O as (bb & b' & q1 & q2 & _). rewrite (IH _ _ _ _ _ O0); [|intros I; apply N; right; exact I].
        subst w0. unfold put_bank, put; cbn [w_banks]. destruct (k =? c_bank c) eqn:E; [|reflexivity].
        apply Z.eqb_eq in E. subst k. destruct N. left. reflexivity. }
    pose proof (Hk _ _ _ _ _ _ _ O0 M1) as Hc'.
    assert (Fee0 : forall k b0 n x, w_banks w0 k = Some b0 -> 0 <= fees_of b0 n ty rate x \/ k = c_bank c).
    { intros k b0 n x Hb. destruct (Z.eq_dec k (c_bank c)) as [E|E]; [right; exact E|left]. rewrite Hw in Hb by exact E. apply (F k b0 n x Hb). }
    assert (Fee : forall k b0 n x, w_banks w0 k = Some b0 -> 0 <= fees_of b0 n ty rate x).
    { intros k b0 n x Hb. destruct (Fee0 k b0 n x Hb) as [E| ->]; [exact E|]. rewrite Hc in Hb. apply some_inj in Hb. subst b0.
      pose proof (F (c_bank c) b1 1 x e1) as G0. unfold fees_of in *.
      assert (loan_fee (set_flash (set_fbank b1 x2) 0 U64_MAX) n = 0).
      { unfold loan_fee. cbn [fb_approved set_flash]. change (of_int 0) with 0.
        destruct (Z.ltb_spec 0 n); [rewrite Z.max_r by lia|]; apply fmul_0_l. }
      rewrite H. clear - F e1. (* the swap fee alone *)
      pose proof (F (c_bank c) b1 (of_int (fb_approved b1) + 1) x e1) as G1.
      unfold swap_fee in *. destruct ty; try lia. destruct (Z.ltb_spec x 0); [|lia].
      unfold fees_of, swap_fee in G1. destruct (Z.ltb_spec x 0); [|lia].
      destruct (Z_le_gt_dec 0 (of_int (fb_approved b1))) as [A|A].
      - assert (loan_fee b1 (of_int (fb_approved b1) + 1) = 0).
        { unfold loan_fee. destruct (Z.ltb_spec 0 (of_int (fb_approved b1) + 1)); [|lia]. rewrite Z.max_r by lia. apply fmul_0_l. }
        lia.
      - pose proof (F (c_bank c) b1 1 x e1) as G2. unfold fees_of, swap_fee in G2. destruct (Z.ltb_spec x 0); [|lia].
        assert (loan_fee b1 1 = 0).
        { unfold loan_fee. destruct (Z.ltb_spec 0 1); [|lia]. rewrite Z.max_r by lia. apply fmul_0_l. }
        lia. }
    apply IH in O0; [|exact Fee|exact N1'|exact N2']. destruct O0 as (h0 & h1 & h2).
    split; [rewrite h0, e5; apply pos_set_keys|]. split.
    + intros u0 Hu. destruct (h1 u0) as (i1 & i2); [intros I; apply Hu; right; exact I|]. split.
      * rewrite i1, e5, pos_get_set. destruct (u0 =? c_index c) eqn:E; [|reflexivity].
        apply Z.eqb_eq in E. subst. destruct Hu. left. reflexivity.
      * destruct b; [exact i2|]. intros [E|I]; [apply Hu; left; exact E|contradiction].
    + intros c0 [<-|I0].
      * exists b1, pp1, x2, pp2, b. split; [exact e1|]. split; [exact e2|]. split; [exact e3|]. split; [rewrite Hc'; exact Hc|].
        destruct (h1 (c_index c) M2) as (i1 & i2). split.
        -- rewrite i1, e5, pos_get_set, Z.eqb_refl, e2. reflexivity.
        -- destruct b; [intros I; contradiction|reflexivity].
      * destruct (h2 c0 I0) as (b0 & pp0 & y2 & q2 & act & g1 & g2 & g3 & g4 & g5 & g6).
        assert (Nb : c_bank c0 <> c_bank c) by (intros E; apply M1; rewrite <- E; apply in_map, I0).
        assert (Ni : c_index c0 <> c_index c) by (intros E; apply M2; rewrite <- E; apply in_map, I0).
        rewrite Hw in g1 by exact Nb. rewrite e5, pos_get_set in g2. apply Z.eqb_neq in Ni as Ni'. rewrite Ni' in g2. rewrite Hn in g3.
        exists b0, pp0, y2, q2, act. split; [exact g1|]. split; [exact g2|]. split; [exact g3|]. split; [exact g4|]. split; [exact g5|].
        destruct b; [exact g6|]. intros [E|I]; [congruence|apply g6, I].
Qed.

Lemma flash_end_money e w acct owner n tyz rem w' a :
  flash_end e w acct owner [Z.of_nat n; tyz] rem = Some w' -> w_accts w acct = Some a ->
  own_vaults w -> uniq w -> nonneg_loans w -> NoDup (map fst (m_toks a)) ->
  NoDup (end_health n rem) -> NoDup (end_vaults n rem ++ end_tokens n rem) ->
  (forall k b, w_banks w k = Some b -> 0 <= b_lof (fb_bank b)) ->
  exists ty rate a', loan_type_of tyz = Some ty /\ w_accts w' acct = Some a' /\ 0 <= rate /\
   (forall vi v tk, nth_error (end_vaults n rem) vi = Some v -> nth_error (end_tokens n rem) vi = Some tk ->
     exists k b b' p p' act, w_banks w k = Some b /\ fb_vault b = v /\ w_banks w' k = Some b' /\ In k (end_health n rem) /\
       fb_swap_rate b <= rate /\
       tok_amount w' v = tok_amount w v + repaid w b tk /\ tok_amount w' tk = tok_amount w tk - repaid w b tk /\
       t_ix p = share (m_toks a) (fb_index b) /\
       bank_op (fb_bank b) p (BCharge (of_int (repaid w b tk - fb_approved b))
          (fees_of b (native (fb_bank b) p) ty rate (of_int (repaid w b tk - fb_approved b))) false (w_now w))
          = Some (fb_bank b', p', act, of_int (repaid w b tk - fb_approved b)) /\
       reset b' /\
       (pos_get (m_toks a') (fb_index b) = Some p' \/ (pos_get (m_toks a') (fb_index b) = None /\ act = false))) /\
   (forall x, ~ In x (end_vaults n rem) -> ~ In x (end_tokens n rem) -> w_tokens w' x = w_tokens w x).
Proof.
  intros H Ha Ow Un Nn Nk Nh Nt Lf. apply flash_end_spec in H.
  destruct H as (nz & tyz' & ty & a0 & w1 & a1 & rate & L & init & lend & f & ps & w2 & a2 & D & post & l2 & toks &
    e1 & e2 & e3 & e4 & e5 & e6 & e7 & e8 & e9 & e10 & e11 & e12 & e13 & e14 & e15 & e16 & e17 & e18 & e19).
  injection e1 as <- <-. rewrite Nat2Z.id in *. rewrite Ha in e4. apply some_inj in e4. subst a0.
  pose proof (end_scan_frame _ _ _ _ _ _ _ _ _ _ _ e9) as (s1 & s2 & s3 & s4 & s5).
  pose proof (end_scan_tokens _ _ _ _ _ _ _ _ _ _ _ e9 Nh Ow Nt) as (t1 & t2 & t3 & t4).
  pose proof (end_scan_share _ _ _ _ _ _ _ _ _ _ _ e9 Nk) as (u1 & u2 & u3 & u4 & u5).
  apply prices_length in e14.
  assert (Ni : NoDup (map c_index L)).
  { clear - t1 s5 Un. induction L as [|c L IH]; cbn [map] in *; [constructor|]. inversion t1 as [|? ? M1 M2]; subst.
    constructor; [|apply IH; [intros c' I; apply s5; right; exact I|exact M2]].
    intros I. apply in_map_iff in I as (c' & E & I). apply M1.
    destruct (s5 c (or_introl eq_refl)) as (b & b1 & _ & b3 & b4 & _).
    destruct (s5 c' (or_intror I)) as (b' & b1' & _ & b3' & b4' & _).
    rewrite (Un (c_bank c) (c_bank c') b b' b1 b1'); [apply in_map, I| | |congruence]; intros (_ & R); contradiction. }
  pose proof (apply_changes_frame _ _ _ _ _ _ _ _ e15) as (f0 & _ & _ & _ & f5 & _).
  apply apply_changes_spec in e15; rewrite ?map_fst_combine by exact e14; try assumption.
  2:{ intros k b m x Hb. rewrite s1 in Hb. apply fees_nonneg; [apply (Nn k b Hb)|apply (Lf k b Hb)|exact u3]. }
  rewrite map_fst_combine in e15 by exact e14. cbn [m_toks set_liq] in e15. destruct e15 as (c1 & c2 & c3).
  assert (Nk2 : NoDup (map fst (m_toks a2))) by (rewrite c1; exact u1).
  pose proof (deactivate_all_spec _ _ _ e18 Nk2) as De.
  exists ty, rate, (set_toks a2 toks). split; [exact e2|]. subst w'. unfold put_acct, put; cbn [w_accts w_banks w_tokens].
  rewrite Z.eqb_refl. split; [reflexivity|]. split; [exact u3|]. split.
  - intros vi v tk Hv Ht.
    assert (Hl : (vi < n)%nat).
    { assert (X : (vi < length (end_vaults n rem))%nat) by (apply nth_error_Some; congruence).
      unfold end_vaults in X. rewrite firstn_length in X. lia. }
    destruct (e10 vi Hl) as (c & Ic & Ec). subst vi.
    destruct (s5 c Ic) as (b & r1 & r2 & r3 & r4 & r5). destruct (t4 c Ic) as (b_ & tk_ & q1 & q2 & q3 & q4 & q5).
    rewrite r1 in q1. apply some_inj in q1. subst b_. rewrite Ht in q2. apply some_inj in q2. subst tk_.
    rewrite Hv in r2. apply some_inj in r2.
    destruct (c3 c Ic) as (b_ & p & x2 & p2 & act & g1 & g2 & g3 & g4 & g5 & g6).
    rewrite s1, r1 in g1. apply some_inj in g1. subst b_. rewrite q3, s3 in g3.
    exists (c_bank c), b, (set_flash (set_fbank b x2) 0 U64_MAX), p, p2, act.
    split; [exact r1|]. split; [auto|]. split; [exact g4|]. split; [exact r5|]. split; [apply (u4 c b Ic r1)|].
    unfold tok_amount in *. cbn [w_tokens]. rewrite f5. subst v. split; [exact q4|]. split; [exact q5|].
    split; [rewrite <- u2, <- r3; unfold share; rewrite g2; reflexivity|].
    split; [exact g3|]. split; [split; reflexivity|]. cbn [m_toks set_toks]. rewrite De, <- r3.
    destruct (existsb (Z.eqb (c_index c)) D) eqn:E; [right; split; [reflexivity|]|left; exact g5].
    apply g6. apply existsb_exists in E as (x & Ix & Ex). apply Z.eqb_eq in Ex. subst. exact Ix.
  - intros x N1 N2. rewrite f5. apply t3. intros c Ic. split; intros E; apply nth_error_In in E; contradiction.
Qed.


(** ** what a begin does *)
Definition l_vaults (L : list (Z * Z * Z * Z)) : list Z := map (fun t => snd (fst (fst t))) L.
Definition l_tokens (L : list (Z * Z * Z * Z)) : list Z := map (fun t => snd (fst t)) L.
Lemma begin_loans_frame group L : forall w seen w', begin_loans w group seen L = Some w' ->
  (forall k, ~ In k (l_vaults L) -> ~ In k (l_tokens L) -> w_tokens w' k = w_tokens w k) /\
  (forall k b, w_banks w k = Some b -> In (fb_index b) seen -> w_banks w' k = Some b).
Proof.
  induction L as [|[[[bk vk] tk] am] L IH]; cbn [begin_loans]; intros w seen w' H.
  - apply some_inj in H; subst. auto.
  - inv_opt H. apply IH in H as [H1 H2]. clear IH.
    assert (F : w_banks w0 = w_banks (put_bank w bk (set_flash f am (ta_amount t0)))) by
      (destruct (0 <? am); [inv_opt O2; apply transfer_frame in O2; apply O2|apply some_inj in O2; subst; reflexivity]).
    split.
    + intros k Hv Ht. rewrite H1; [|intros I; apply Hv; right; exact I|intros I; apply Ht; right; exact I].
      destruct (0 <? am); [|apply some_inj in O2; subst; reflexivity]. inv_opt O2. unfold transfer in O2. inv_opt O2. apply some_inj in O2.
      subst. cbn [set_tokens w_tokens]. unfold put. cbn [put_bank w_tokens].
      destruct (Z.eqb_spec k tk) as [->|_]; [exfalso; apply Ht; left; reflexivity|]. destruct (Z.eqb_spec k vk) as [->|_]; [exfalso; apply Hv; left; reflexivity|].
      reflexivity.
    + intros k b Hk I. apply H2; [|right; exact I]. rewrite F. unfold put_bank, put; cbn [w_banks]. destruct (Z.eqb_spec k bk) as [->|_]; [|exact Hk].
      exfalso. rewrite O in Hk. apply some_inj in Hk. subst b. apply negb_true_iff in G1. rewrite <- not_true_iff_false in G1.
      apply G1, existsb_exists. exists (fb_index f). split; [exact I|apply Z.eqb_refl].
Qed.
Lemma begin_loans_issue group L : forall w seen w', begin_loans w group seen L = Some w' -> NoDup (l_vaults L ++ l_tokens L) ->
  forall bk vk tk am, In (bk, vk, tk, am) L ->
  exists b v t v' t', w_banks w bk = Some b /\ fb_group b = group /\ fb_vault b = vk /\ reset b /\ ~ In (fb_index b) seen /\
    w_banks w' bk = Some (set_flash b am (ta_amount t)) /\
    w_tokens w vk = Some v /\ w_tokens w tk = Some t /\ ta_mint t = fb_mint b /\ ta_owner t <> group /\
    0 <= am <= U64_MAX /\ (0 < am -> am <= ta_amount v) /\
    w_tokens w' vk = Some v' /\ w_tokens w' tk = Some t' /\ ta_amount v' = ta_amount v - am /\ ta_amount t' = ta_amount t + am.
Proof.
  induction L as [|[[[bk vk] tk] am] L IH]; cbn [begin_loans]; intros w seen w' H ND bk' vk' tk' am' I; [destruct I|].
  inv_opt H.
  assert (F : w_banks w0 = w_banks (put_bank w bk (set_flash f am (ta_amount t0)))) by
      (destruct (0 <? am); [inv_opt O2; apply transfer_frame in O2; apply O2|apply some_inj in O2; subst; reflexivity]).
  cbn [l_vaults l_tokens map fst snd app] in ND. fold (l_vaults L) in ND. fold (l_tokens L) in ND.
  inversion ND as [|? ? N1 N2]; subst. pose proof (NoDup_remove_1 _ _ _ N2) as N3. pose proof (NoDup_remove_2 _ _ _ N2) as N4.
  assert (NE : vk <> tk) by (intros ->; apply N1, in_or_app; right; left; reflexivity).
  apply negb_true_iff in G1. rewrite <- not_true_iff_false in G1.
  assert (NI : ~ In (fb_index f) seen) by (intros J; apply G1, existsb_exists; exists (fb_index f); split; [exact J|apply Z.eqb_refl]).
  apply andb_prop in G as [Ga Gb]. apply Z.leb_le in Ga, Gb. apply andb_prop in G0 as [Gg Gv]. apply Z.eqb_eq in Gg, Gv.
  apply andb_prop in G2 as [Gm Go]. apply Z.eqb_eq in Gm. apply negb_true_iff, Z.eqb_neq in Go.
  assert (R : reset f) by (apply andb_prop in G3 as [R1 R2]; apply Z.eqb_eq in R1, R2; split; assumption).
  assert (T : (0 < am -> am <= ta_amount t) /\ exists v' t', w_tokens w0 vk = Some v' /\ w_tokens w0 tk = Some t' /\
            ta_amount v' = ta_amount t - am /\ ta_amount t' = ta_amount t0 + am /\ (forall k, k <> vk -> k <> tk -> w_tokens w0 k = w_tokens w k)).
  { destruct (Z.ltb_spec 0 am) as [P|P].
    - inv_opt O2. apply Z.leb_le in G. split; [intros _; exact G|]. unfold transfer in O2. inv_opt O2. apply some_inj in O2.
      cbn [put_bank w_tokens] in *. unfold put in O4. destruct (Z.eqb_spec tk vk) as [E|_]; [congruence|].
      subst w0. cbn [set_tokens w_tokens]. unfold put. rewrite !Z.eqb_refl.
      destruct (Z.eqb_spec vk tk) as [E|_]; [congruence|]. do 2 eexists. split; [reflexivity|]. split; [reflexivity|]. cbn [ta_amount].
      split; [congruence|]. split; [congruence|]. intros k K1 K2. apply Z.eqb_neq in K1, K2. rewrite K2, K1. reflexivity.
    - apply some_inj in O2. subst w0. cbn [put_bank w_tokens]. split; [lia|]. exists t, t0. split; [assumption|]. split; [assumption|].
      split; [lia|]. split; [lia|]. reflexivity. }
  destruct T as (T0 & v' & t' & T1 & T2 & T3 & T4 & T5).
  pose proof (begin_loans_frame _ _ _ _ _ H) as (FT & FB).
  destruct I as [I|I].
  - injection I as <- <- <- <-. exists f, t, t0, v', t'.
    split; [exact O|]. split; [exact Gg|]. split; [exact Gv|]. split; [exact R|]. split; [exact NI|].
    split; [apply FB; [rewrite F; unfold put_bank, put; cbn [w_banks]; rewrite Z.eqb_refl; reflexivity|left; reflexivity]|].
    split; [exact O0|]. split; [exact O1|]. split; [exact Gm|]. split; [exact Go|]. split; [split; assumption|]. split; [exact T0|].
    split; [rewrite FT; [exact T1|intros J; apply N1, in_or_app; left; exact J|intros J; apply N1, in_or_app; right; right; exact J]|].
    split; [rewrite FT; [exact T2|intros J; apply N4, in_or_app; left; exact J|intros J; apply N4, in_or_app; right; exact J]|].
    split; assumption.
  - destruct (IH _ _ _ H N3 _ _ _ _ I) as (b & v & t1 & v1 & t1' & h1 & h2 & h3 & h4 & h5 & h6 & h7 & h8 & h9).
    assert (Iv : In vk' (l_vaults L)) by (apply in_map_iff; exists (bk', vk', tk', am'); split; [reflexivity|exact I]).
    assert (It : In tk' (l_tokens L)) by (apply in_map_iff; exists (bk', vk', tk', am'); split; [reflexivity|exact I]).
    assert (Eb : w_banks w bk' = Some b).
    { rewrite F in h1. unfold put_bank, put in h1; cbn [w_banks] in h1. destruct (Z.eqb_spec bk' bk) as [->|_]; [|exact h1].
      exfalso. apply some_inj in h1. subst b. apply h5. left. reflexivity. }
    rewrite T5 in h7; [rewrite T5 in h8|..].
    + exists b, v, t1, v1, t1'. split; [exact Eb|]. split; [exact h2|]. split; [exact h3|]. split; [exact h4|].
      split; [intros J; apply h5; right; exact J|]. split; [exact h6|]. split; [exact h7|]. split; [exact h8|]. exact h9.
    + intros ->. apply N1, in_or_app. right. right. exact It.
    + intros ->. apply N4, in_or_app. right. exact It.
    + intros ->. apply N1, in_or_app. left. exact Iv.
    + intros ->. apply N4, in_or_app. left. exact Iv.
Qed.
