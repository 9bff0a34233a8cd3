(** C45: who may act on an account, and what delegates can do.  Public statements. *)
From Coq Require Import List ZArith Lia Bool.
From Verif Require Import Fixed Interest Bank BankFacts GateTable AuthTable Auth AuthSpec AuthFacts.
From Verif Require TxRules PropInterest PropTx.
Import ListNotations.
Open Scope Z_scope.

(** An account belongs to one owner for ever: the one whose address it is derived
    from, through all edits, freezes, closings and re-creations. *)
Theorem C45_owner (l : hist) (st : accts) (k : akey) (a : auth) :
  runs no_accts l st -> st k = Some a -> au_owner a = fst k.
Proof. intros R. exact (owner_inv l st R k a). Qed.

(** Every use of an account is one of the public ones, or was signed by its owner, or
    (freezing) by the group admin, or by the delegate whom the owner set last, or by the
    temporary delegate whom the owner set last, in time and less than a week after. *)
Theorem C45_who_may_act (l : hist) (st st' : accts) (e : tenv) (c : call) (k : akey) (r : role) :
  runs no_accts l st -> step e st c = Some st' -> ~ In 0 (e_signers e) -> uses c k r ->
  public_use (c_ix c) r \/ In (fst k) (e_signers e) \/
  (c_ix c = Ix_account_toggle_freeze /\ In (e_admin e) (e_signers e)) \/
  exists s, In s (e_signers e) /\
    (last_grant l k s \/ exists x, last_grant_until l k s x /\ e_now e <= x).
Proof.
  intros R HS H0 U. destruct (step_checked e st c st' k r HS U) as [Af (t & Ht & Er & Hok)].
  unfold touch_ok in Hok. destruct (t_who t) eqn:Ew.
  - destruct (st k); [discriminate|]. apply andb_prop in Hok as [H1 H2]. apply Z.eqb_eq in H1. apply signed_in in H2. right; left. rewrite H1. exact H2.
  - destruct (st k) as [a|] eqn:Ek; [|discriminate]. apply andb_prop in Hok as [_ Hok]. apply andb_prop in Hok as [H1 H2]. apply Z.eqb_eq in H1. apply signed_in in H2.
    right; left. rewrite <- (owner_inv l st R k a Ek), H1. exact H2.
  - destruct (st k) as [a|] eqn:Ek; [|discriminate]. apply andb_prop in Hok as [_ Hok]. apply andb_prop in Hok as [H1 H2]. apply signed_in in H2.
    unfold owner_or_delegate in H1. apply orb_prop in H1 as [H1|H1].
    + apply Z.eqb_eq in H1. right; left. rewrite <- (owner_inv l st R k a Ek), H1. exact H2.
    + right; right; right. exists (c_signer c). split; [exact H2|]. destruct (grants_inv l st R k a Ek) as [G1 G2].
      assert (Hs: c_signer c <> 0) by (intros Q; rewrite Q in H2; contradiction).
      unfold delegate_of in H1. destruct (Z.eqb_spec (au_delegate a) (c_signer c)) as [E|E].
      * left. rewrite <- E in *. destruct G1 as [G1|G1]; [congruence|exact G1].
      * destruct (Z.ltb_spec (au_texpiry a) (e_now e)); [discriminate|]. apply Z.eqb_eq in H1. right. exists (au_texpiry a). split; [|lia].
        rewrite H1 in *. destruct G2 as [[G2 _]|G2]; [congruence|exact G2].
  - destruct (st k) as [a|] eqn:Ek; [|discriminate]. apply andb_prop in Hok as [_ Hok]. apply andb_prop in Hok as [H1 H2]. apply Z.eqb_eq in H1. apply signed_in in H2.
    rewrite H1 in H2. right; right; left. split; [|exact H2].
    clear - Ht Ew. destruct (c_ix c); cbn in Ht; try reflexivity; repeat (destruct Ht as [<-|Ht]; [discriminate|]); destruct Ht.
  - left. clear - Ht Ew Er Af. unfold public_use. subst r.
    destruct (c_ix c); cbn in Af; try discriminate Af; cbn in Ht;
      repeat (destruct Ht as [<-|Ht]; [try discriminate Ew; cbn [t_role];
        first [left; reflexivity | right; left; reflexivity | right; right; left; reflexivity | right; right; right; left; reflexivity
              | right; right; right; right; left; reflexivity | right; right; right; right; right; right; reflexivity
              | right; right; right; right; right; left; cbn; tauto]|]);
      destruct Ht.
Qed.

(** Editing, resizing and closing an account, and its sequence check, need the owner
    himself. *)
Theorem C45_owner_only (l : hist) (st st' : accts) (e : tenv) (c : call) (k : akey) :
  runs no_accts l st -> step e st c = Some st' -> In k (c_key c RAccount) ->
  In (c_ix c) [Ix_account_create; Ix_account_create_v2; Ix_account_edit; Ix_account_expand; Ix_account_expand_v2; Ix_account_close; Ix_sequence_check] ->
  In (fst k) (e_signers e).
Proof.
  intros R HS Hk Hi. assert (U: uses c k RAccount).
  { split; [|exact Hk]. cbn in Hi. destruct Hi as [<-|[<-|[<-|[<-|[<-|[<-|[<-|[]]]]]]]]; left; reflexivity. }
  destruct (step_checked e st c st' k RAccount HS U) as [_ (t & Ht & _ & Hok)].
  assert (Hw: t_who t = WOwner \/ t_who t = WNew).
  { cbn in Hi. destruct Hi as [E|[E|[E|[E|[E|[E|[E|[]]]]]]]]; rewrite <- E in Ht; destruct Ht as [<-|[]]; cbn; auto. }
  unfold touch_ok in Hok. destruct Hw as [Hw|Hw]; rewrite Hw in Hok; destruct (st k) as [a|] eqn:Ek; try discriminate.
  - apply andb_prop in Hok as [_ Hok]. apply andb_prop in Hok as [H1 H2]. apply Z.eqb_eq in H1. apply signed_in in H2.
    rewrite <- (owner_inv l st R k a Ek), H1. exact H2.
  - apply andb_prop in Hok as [H1 H2]. apply Z.eqb_eq in H1. apply signed_in in H2. rewrite H1. exact H2.
Qed.

(** For a week after the admin froze an account, unless he unfreezes it, nothing but
    the listed instructions uses it. *)
Theorem C45_frozen (l l2 : hist) (st st1 st2 st3 : accts) (e e3 : tenv) (c c3 : call) (k : akey) (r : role) :
  runs no_accts l st -> step e st c = Some st1 -> freezes c k true -> runs st1 l2 st2 ->
  (forall e' c', In (e', c') l2 -> e_now e <= e_now e' <= e_now e + 604800 /\ ~ freezes c' k false) ->
  step e3 st2 c3 = Some st3 -> e_now e3 <= e_now e + 604800 -> uses c3 k r ->
  works_frozen (c_ix c3) r.
Proof.
  intros R HS (Fi & Fk & Fa) R2 Hl HS3 Hn U. set (T := e_now e + 604800) in *.
  assert (F1: exists a, st1 k = Some a /\ T <= au_frozen a).
  { apply step_effect in HS. unfold effect in HS. rewrite Fk, Fi, Fa in HS. destruct (st k) as [a|]; [|discriminate]. injection HS as <-.
    exists (set_freeze e a true). split; [apply put_same|]. cbn [set_freeze au_frozen]. unfold T, WEEK. lia. }
  assert (F2: exists a, st2 k = Some a /\ T <= au_frozen a).
  { clear HS3 U HS. revert Hl F1. induction R2 as [|s e1 c1 s1 l1 s2 H1 _ IH]; intros Hl F1; [exact F1|].
    apply IH; [intros e' c' Hin; apply Hl; right; exact Hin|]. destruct (Hl e1 c1 ltac:(left; reflexivity)) as [Hb Hf].
    apply (frozen_keeps e1 s c1 s1 k T H1); [lia|exact Hf|unfold T, WEEK; lia|exact F1]. }
  destruct F2 as (a & Ea & Fz). destruct (step_checked e3 st2 c3 st3 k r HS3 U) as [Af (t & Ht & Er & Hok)].
  assert (Ho: t_oper t = false /\ t_who t <> WNew).
  { unfold touch_ok in Hok. rewrite Ea in Hok. assert (No: operational e3 a = false) by (unfold operational; apply Z.ltb_ge; lia).
    destruct (t_who t); try discriminate; (split; [|discriminate]); rewrite No in Hok; destruct (t_oper t); [discriminate|reflexivity|discriminate|reflexivity|discriminate|reflexivity|discriminate|reflexivity]. }
  clear - Ht Er Ho Af. destruct Ho as [Ho Hw]. unfold works_frozen. subst r.
  destruct (c_ix c3); cbn in Af; try discriminate Af; cbn in Ht;
    repeat (destruct Ht as [<-|Ht]; [try discriminate Ho; try (exfalso; apply Hw; reflexivity); cbn [t_role];
        first [left; reflexivity | right; left; reflexivity | right; right; right; reflexivity | right; right; left; cbn; tauto]|]);
    destruct Ht.
Qed.

(** ** delegated withdrawals *)
(** Whoever signs a withdrawal without being the owner: the tokens go to the owner's
    associated token account, owned by the owner; the position is closed, nothing is
    borrowed, and what the position keeps is less than one native token. *)
Theorem C45_delegate_withdraw (e : tenv) (a : auth) (signer : Z) (target : tokacc) (ata : Z -> Z)
  (b b' : bank) (p p' : tpos) (amount : Z) (allow_borrow : bool) (vault : Z) (oracle : fx) (ok : bool) (r : wres) (paid : Z) :
  index_ok b -> 0 <= b_lof b ->
  withdraw_ix e a signer target ata b p amount allow_borrow vault oracle ok = Some (b', p', r, paid) -> signer <> au_owner a ->
  operational e a = true /\ delegate_of e a signer = true /\ In signer (e_signers e) /\
  (paid <> 0 \/ b' <> b \/ p' <> p ->
   tk_key target = ata (au_owner a) /\ tk_owner target = au_owner a /\
   t_ix p' = 0 /\ w_loan r = 0 /\ w_fee r = 0 /\ 0 <= native b p - of_int paid < fone).
Proof.
  intros Ix Lo H Hs. unfold withdraw_ix in H.
  destruct (guard (_ && _)) eqn:G; [|discriminate]. apply gtrue in G. apply andb_prop in G as [G G3]. apply andb_prop in G as [G1 G2].
  apply signed_in in G3. assert (D: delegate_of e a signer = true).
  { unfold owner_or_delegate in G2. apply orb_prop in G2 as [G2|G2]; [apply Z.eqb_eq in G2; congruence|exact G2]. }
  split; [exact G1|]. split; [exact D|]. split; [exact G3|].
  destruct (token_withdraw _ _ _ _ _ _ _ _) as [[[[b1 p1] r1] q1]|] eqn:W; [|discriminate].
  unfold token_withdraw in W. destruct (guard (0 <? amount)) eqn:Ga; [|discriminate].
  set (early := (amount =? U64_MAX) && negb allow_borrow && (native b p <? 0)) in *. destruct early eqn:Ee.
  - apply Some_inj in H || (injection H as <- <- <- <-). injection W as <- <- <- <-. intros [Q|[Q|Q]]; congruence.
  - rewrite D in H. destruct (guard (_ && negb (w_active r1))) eqn:Gd; [|discriminate]. apply gtrue in Gd.
    apply andb_prop in Gd as [Gd Act]. apply andb_prop in Gd as [K1 K2]. apply Z.eqb_eq in K1, K2. apply negb_true_iff in Act.
    injection H as <- <- <- <-. intros _. set (am := if _ && _ then _ else _) in W.
    destruct (guard (allow_borrow || _)); [|discriminate]. destruct (if borrows_reduce_only b then _ else _); [|discriminate].
    destruct (withdraw_with_fee b p (of_int am) (e_now e)) as [[[b2 p2] r2]|] eqn:Ww; [|discriminate].
    destruct (guard (am <=? vault)); [|discriminate]. destruct (if native b p <? of_int am then _ else _) in W; [|discriminate].
    injection W as <- <- <- <-. unfold withdraw_with_fee in Ww. apply withdraw_spec in Ww; [|exact Ix|exact Lo].
    destruct Ww as (_ & _ & _ & _ & _ & Wf & Wl & _ & Wi & _). destruct (Wi Act) as (_ & _ & Z0 & _ & Hn & Tb).
    split; [exact K1|]. split; [exact K2|]. split; [exact Z0|].
    destruct (Z.ltb_spec 0 (to_borrow b p (of_int am))); [lia|]. rewrite andb_false_r in Wf. split; [exact Wl|]. split; [exact Wf|exact Hn].
Qed.
(** An owner who is not also registered as delegate has no such restriction. *)
Theorem C45_owner_withdraw (e : tenv) (a : auth) (target : tokacc) (ata : Z -> Z)
  (b : bank) (p : tpos) (amount : Z) (allow_borrow : bool) (vault : Z) (oracle : fx) (ok : bool) :
  operational e a = true -> In (au_owner a) (e_signers e) -> delegate_of e a (au_owner a) = false ->
  withdraw_ix e a (au_owner a) target ata b p amount allow_borrow vault oracle ok =
  token_withdraw b p amount allow_borrow (e_now e) vault oracle ok.
Proof.
  intros Ho Hs Hd. unfold withdraw_ix, owner_or_delegate. rewrite Ho, Z.eqb_refl, (proj2 (signed_in e (au_owner a)) Hs). cbn [andb orb guard].
  destruct (token_withdraw _ _ _ _ _ _ _ _) as [[[[? ?] ?] ?]|]; [|reflexivity]. destruct (_ && _ && _); [reflexivity|]. rewrite Hd. reflexivity.
Qed.
(** Anyone may force a withdrawal where the admin enabled it, but only to a token
    account of the owner, at most the deposits, never as a borrow. *)
Theorem C45_force_withdraw (e : tenv) (a : auth) (owner_ata alternate : tokacc) (ata : Z -> Z) (forced : bool)
  (b b' : bank) (p p' : tpos) (vault : Z) (act : bool) (target : tokacc) (paid : Z) :
  index_ok b -> 0 <= b_lof b ->
  force_withdraw_ix e a owner_ata alternate ata forced b p vault = Some (b', p', act, target, paid) ->
  forced = true /\ operational e a = true /\ tk_owner target = au_owner a /\
  0 <= paid /\ 0 <= native b p - of_int paid < fone /\ 0 <= t_ix p' <= t_ix p.
Proof.
  intros Ix Lo H. unfold force_withdraw_ix in H. destruct (guard (operational e a)) eqn:G1; [|discriminate]. apply gtrue in G1.
  destruct (guard (_ && (tk_owner alternate =? _))) eqn:G2; [|discriminate]. apply gtrue in G2. apply andb_prop in G2 as [_ G2]. apply Z.eqb_eq in G2.
  destruct (guard forced) eqn:G3; [|discriminate]. apply gtrue in G3. destruct (guard (0 <=? native b p)) eqn:G4; [|discriminate]. apply gtrue in G4. apply Z.leb_le in G4.
  destruct (withdraw_without_fee _ _ _ _) as [[[b1 p1] a1]|] eqn:W; [|discriminate]. destruct (guard (_ <=? vault)); [|discriminate].
  destruct (guard (enforce_max_utilization _ _)); [|discriminate]. injection H as <- <- <- <- <-.
  split; [exact G3|]. split; [exact G1|]. split; [destruct (Z.eqb_spec (tk_owner owner_ata) (au_owner a)); assumption|].
  unfold withdraw_without_fee in W. destruct (withdraw_internal _ _ _ _ _ _) as [[[b2 p2] r2]|] eqn:Wi; [|discriminate]. injection W as <- <- <-.
  apply withdraw_spec in Wi; [|exact Ix|exact Lo]. destruct Wi as (_ & _ & Hle & _ & _ & _ & _ & _ & _ & _ & _ & Hpos & _).
  unfold of_int, to_int in *. pose proof (Z.div_mod (native b p) fone) as Dm. assert (Fp: 0 < fone) by reflexivity.
  pose proof (Z.mod_pos_bound (native b p) fone Fp). assert (0 <= native b p / fone) by (apply Z.div_pos; lia).
  split; [lia|]. split; [lia|]. split; [apply Hpos; lia|exact Hle].
Qed.

(** ** flash loans by delegates *)
Lemma scan_delegate acct n trail : forall rest, TxRules.scan_flash true acct n trail rest = true ->
  exists mid last tail, rest = mid ++ last :: tail /\ TxRules.i_prog last = TxRules.MANGO /\ TxRules.i_name last = TxRules.FlashLoanEndV2 /\
    Forall (fun i => In (TxRules.i_prog i) [2; 3; 4; 5; 6]) mid.
Proof.
  induction rest as [|i rest IH]; cbn [TxRules.scan_flash]; intros H; [discriminate|]. cbn [andb] in H.
  destruct (negb (existsb (Z.eqb (TxRules.i_prog i)) TxRules.delegate_programs)) eqn:Ed; [discriminate|]. apply negb_false_iff in Ed.
  destruct (Z.eqb_spec (TxRules.i_prog i) TxRules.MANGO) as [Em|Em].
  - destruct (TxRules.i_name i) eqn:En; try discriminate. exists [], i, rest. split; [reflexivity|]. split; [exact Em|]. split; [exact En|constructor].
  - destruct (existsb (Z.eqb TxRules.MANGO) (TxRules.i_accts i)); [discriminate|]. destruct (IH H) as (mid & last & tail & -> & Hp & Hn & Hf).
    exists (i :: mid), last, tail. split; [reflexivity|]. split; [exact Hp|]. split; [exact Hn|]. constructor; [|exact Hf].
    apply existsb_exists in Ed as (x & Hx & Ex). apply Z.eqb_eq in Ex. rewrite Ex in *. cbn in Hx. cbn. intuition congruence.
Qed.
(** A flash loan taken by anyone but the owner: until it is paid back by the matching
    FlashLoanEnd in the same transaction, only the associated token program, Jupiter
    and the compute budget program run. *)
Theorem C45_delegate_flash_loan (tx : list TxRules.ix) (pos : nat) (w w' : TxRules.world) (acct signer : Z) (amounts rem : list Z) (a : TxRules.macc) :
  TxRules.flash_begin tx pos w acct signer amounts rem = Some w' -> TxRules.w_accts w acct = Some a -> TxRules.m_owner a <> signer ->
  exists mid last tail, skipn (S pos) tx = mid ++ last :: tail /\
    TxRules.i_prog last = TxRules.MANGO /\ TxRules.i_name last = TxRules.FlashLoanEndV2 /\
    Forall (fun i => In (TxRules.i_prog i) [2; 3; 4; 5; 6]) mid.
Proof.
  intros H Ha Hs. unfold TxRules.flash_begin in H.
  repeat match type of H with
  | (match guard ?b with Some _ => _ | None => None end) = Some _ => let G := fresh "G" in destruct (guard b) eqn:G; [apply gtrue in G|discriminate H]
  | (match ?x with Some _ => _ | None => None end) = Some _ => let O := fresh "O" in destruct x eqn:O; [|discriminate H]
  end.
  match goal with Q : TxRules.w_accts w acct = Some ?m |- _ => assert (m = a) by congruence; subst m end.
  match goal with Q : TxRules.scan_flash ?d _ _ _ _ = true |- _ => assert (D: d = true); [|rewrite D in Q; exact (scan_delegate _ _ _ _ Q)] end.
  match goal with Q : TxRules.is_owner_or_delegate w a signer = true |- _ => unfold TxRules.is_owner_or_delegate in Q; apply orb_prop in Q as [Q|Q];
    [apply Z.eqb_eq in Q; congruence|exact Q] end.
Qed.

(** ** freezing is not as documented *)
Definition at_acct (k : akey) : role -> list akey := fun r => match r with RAccount => [k] | _ => [] end.
Definition ex_k : akey := (1, 0).
Definition ex_create : tenv * call := (mkTenv 100 [1] 50, mkCall Ix_account_create_v2 (at_acct ex_k) 1 ANone).
Definition ex_edit : tenv * call := (mkTenv 150 [1] 50, mkCall Ix_account_edit (at_acct ex_k) 1 (AEdit false (Some 7) (Some 8) (Some 1000))).
Definition ex_freeze : tenv * call := (mkTenv 200 [50] 50, mkCall Ix_account_toggle_freeze (at_acct ex_k) 50 (AFreeze true)).
Definition ex_cancel : tenv * call := (mkTenv 300 [7] 50, mkCall Ix_perp_cancel_all_orders (at_acct ex_k) 7 ANone).
Definition ex_place : tenv * call := (mkTenv 180 [8] 50, mkCall Ix_perp_place_order (at_acct ex_k) 8 ANone).
(** account_toggle_freeze.rs:6-7 promises: "prevents all instructions involving account
    (also settling and liquidation), except perp consume events and force cancellation of
    orders"; but cancelling one's own perp orders still works. *)
Theorem C45_frozen_as_documented_refuted :
  exists l st st1 st2 e c,
    runs no_accts l st /\ step (fst ex_freeze) st (snd ex_freeze) = Some st1 /\ freezes (snd ex_freeze) ex_k true /\
    e_now e <= e_now (fst ex_freeze) + 604800 /\ step e st1 c = Some st2 /\ uses c ex_k RAccount /\ c_ix c = Ix_perp_cancel_all_orders.
Proof.
  assert (R1: exists st, runs no_accts [ex_create; ex_edit] st /\ st = put_acct (put_acct no_accts ex_k (Some (new_auth ex_k))) ex_k (Some (mkAuth 1 7 8 1000 0))).
  { eexists. split; [|reflexivity]. econstructor; [reflexivity|]. econstructor; [reflexivity|]. constructor. }
  destruct R1 as (st & R & ->).
  exists [ex_create; ex_edit], (put_acct (put_acct no_accts ex_k (Some (new_auth ex_k))) ex_k (Some (mkAuth 1 7 8 1000 0))).
  eexists. eexists. exists (fst ex_cancel), (snd ex_cancel).
  split; [exact R|]. split; [reflexivity|]. split; [split; [reflexivity|]; split; reflexivity|]. split; [vm_compute; discriminate|].
  split; [reflexivity|]. split; [split; left; reflexivity|reflexivity].
Qed.
(** ** concrete cases *)
Example C45_history_case :
  exists st st' st1, runs no_accts [ex_create; ex_edit] st /\ step (fst ex_place) st (snd ex_place) = Some st' /\
    ~ In 0 (e_signers (fst ex_place)) /\ uses (snd ex_place) ex_k RAccount /\ ~ public_use (c_ix (snd ex_place)) RAccount /\
    step (fst ex_freeze) st (snd ex_freeze) = Some st1 /\ step (mkTenv 300 [8] 50) st1 (snd ex_place) = None /\
    step (mkTenv 604801 [7] 50) st (mkCall Ix_perp_place_order (at_acct ex_k) 8 ANone) = None.
Proof.
  eexists. eexists. eexists. split; [econstructor; [reflexivity|]; econstructor; [reflexivity|]; constructor|].
  split; [reflexivity|]. split; [cbn; lia|]. split; [split; left; reflexivity|]. split.
  - cbn. unfold public_use. cbn. intuition discriminate.
  - split; [reflexivity|]. split; reflexivity.
Qed.
Definition ex_wbank : bank :=
  mkBank (1000000 * fone) (1000000 * fone) (2 * fone) 0 0 0 (fone / 2000) 0 100 0 1000 fone 0 0 0 (fone * 9 / 10) 0
    PropInterest.ex_par 0.
Definition ex_auth : auth := mkAuth 1 7 0 0 0.
Example C45_delegate_withdraw_case :
  index_ok ex_wbank /\ 0 <= b_lof ex_wbank /\
  (exists b' p' r, withdraw_ix (mkTenv 100 [7] 50) ex_auth 7 (mkTok 900 1) (fun o => 899 + o) ex_wbank (mkTpos fone 0) 1000000 false 5000000 fone true
     = Some (b', p', r, 1000000)) /\
  withdraw_ix (mkTenv 100 [7] 50) ex_auth 7 (mkTok 900 1) (fun o => 899 + o) ex_wbank (mkTpos fone 0) 500000 false 5000000 fone true = None /\
  withdraw_ix (mkTenv 100 [7] 50) ex_auth 7 (mkTok 901 7) (fun o => 899 + o) ex_wbank (mkTpos fone 0) 1000000 false 5000000 fone true = None /\
  (exists b' p' r, withdraw_ix (mkTenv 100 [1] 50) ex_auth 1 (mkTok 901 7) (fun o => 899 + o) ex_wbank (mkTpos fone 0) 500000 false 5000000 fone true
     = Some (b', p', r, 500000)) /\
  (exists b' p' act, force_withdraw_ix (mkTenv 100 [99] 50) ex_auth (mkTok 900 66) (mkTok 901 1) (fun o => 899 + o) true ex_wbank (mkTpos fone 0) 5000000
     = Some (b', p', act, mkTok 901 1, 1000000)).
Proof.
  split; [split; reflexivity|]. split; [vm_compute; discriminate|].
  split; [eexists; eexists; eexists; vm_compute; reflexivity|]. split; [vm_compute; reflexivity|]. split; [vm_compute; reflexivity|].
  split; [eexists; eexists; eexists; vm_compute; reflexivity|]. eexists; eexists; eexists; vm_compute; reflexivity.
Qed.

Definition ex_dworld : TxRules.world :=
  TxRules.mkW (TxRules.w_banks PropTx.ex_w) (fun k => if k =? 50 then Some (TxRules.mkMacc 7 10 77 0 0 0 false false 0 8 [(1, mkTpos PropTx.ex_shares 0)]) else None)
    (TxRules.w_tokens PropTx.ex_w) (TxRules.w_groups PropTx.ex_w) 5.
Example C45_delegate_flash_loan_case :
  (exists w', TxRules.flash_begin [PropTx.ex_begin; PropTx.ex_swap; PropTx.ex_end []] 0 ex_dworld 50 77 [100] [100; 101; 102; 7] = Some w') /\
  TxRules.flash_begin [PropTx.ex_begin; TxRules.mkIx 9 (TxRules.OtherIx 0) [] [102; 103]; PropTx.ex_end []] 0 ex_dworld 50 77 [100] [100; 101; 102; 7] = None.
Proof.
  split; [|vm_compute; reflexivity].
  destruct (TxRules.flash_begin _ _ _ _ _ _ _) as [w'|] eqn:E; [exists w'; reflexivity|].
  exfalso. assert (K: match TxRules.flash_begin [PropTx.ex_begin; PropTx.ex_swap; PropTx.ex_end []] 0 ex_dworld 50 77 [100] [100; 101; 102; 7] with Some _ => true | None => false end = true) by (vm_compute; reflexivity).
  rewrite E in K. discriminate.
Qed.

Print Assumptions C45_owner.
Print Assumptions C45_who_may_act.
Print Assumptions C45_owner_only.
Print Assumptions C45_frozen.
Print Assumptions C45_delegate_withdraw.
Print Assumptions C45_owner_withdraw.
Print Assumptions C45_force_withdraw.
Print Assumptions C45_delegate_flash_loan.
Print Assumptions C45_frozen_as_documented_refuted.
