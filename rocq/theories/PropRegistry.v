(** C104: indexes of tokens and markets mean one thing. *)
From Coq Require Import List ZArith Lia Bool.
From Verif Require Import HealthFacts Bank Registry.
Import ListNotations.
Open Scope Z_scope.

(** ** specification *)
(** token index [i] stands for mint [m] *)
Definition token (s : reg) (i m : Z) : Prop := exists k, In (mkRB i k m) (r_banks s).
Definition nothing_twice (s : reg) : Prop :=
  (* an index stands for one mint, a mint for one index *)
  (forall i m m', token s i m -> token s i m' -> m = m') /\ (forall i i' m, token s i m -> token s i' m -> i = i') /\
  (* no two banks of a token have the same number; it has a bank number 0, and at most six *)
  NoDup (map (fun b => (rb_index b, rb_num b)) (r_banks s)) /\
  (forall i m, token s i m -> In (mkRB i 0 m) (r_banks s) /\ forall k, In (mkRB i k m) (r_banks s) -> 0 <= k < 6) /\
  (* the mint info of a mint lists all its banks *)
  (forall i m, token s i m -> exists x, In x (r_mints s) /\ mi_mint x = m /\ mi_index x = i /\ forall k, In (i, k) (mi_banks x) <-> In (mkRB i k m) (r_banks s)) /\
  (* no two spot markets share an index or an external market, no two perp markets an index; an index is reserved as long as it is in use *)
  NoDup (map sm_index (r_markets s)) /\ NoDup (map sm_ext (r_markets s)) /\ NoDup (map fst (r_perps s)) /\
  (forall i, In i (r_reserved s) <-> In i (map sm_index (r_markets s))).

(** ** invariant *)
Definition nums (n : nat) (i : Z) : list (Z * Z) := map (fun k => (i, Z.of_nat k)) (seq 0 n).
Definition info_ok (s : reg) (x : minfo) : Prop :=
  exists n, (1 <= n <= 6)%nat /\ mi_banks x = nums n (mi_index x) /\ forall k, (k < n)%nat -> In (mkRB (mi_index x) (Z.of_nat k) (mi_mint x)) (r_banks s).
Definition inv (s : reg) : Prop :=
  NoDup (map (fun b => (rb_index b, rb_num b)) (r_banks s)) /\ NoDup (map mi_mint (r_mints s)) /\ (forall x, In x (r_mints s) -> info_ok s x) /\
  (forall b, In b (r_banks s) -> exists x, In x (r_mints s) /\ mi_mint x = rb_mint b /\ mi_index x = rb_index b /\ In (rb_index b, rb_num b) (mi_banks x)) /\
  NoDup (map sm_index (r_markets s)) /\ NoDup (map sm_ext (r_markets s)) /\ NoDup (map fst (r_perps s)) /\
  (forall i, In i (r_reserved s) <-> In i (map sm_index (r_markets s))).

Lemma in_nums n i j k : In (j, k) (nums n i) <-> j = i /\ 0 <= k < Z.of_nat n.
Proof.
  unfold nums. rewrite in_map_iff. split.
  - intros (x & E & I). apply in_seq in I. inversion E; subst. lia.
  - intros (-> & K). exists (Z.to_nat k). rewrite Z2Nat.id by lia. split; [reflexivity|]. apply in_seq. lia.
Qed.
Lemma at_key_spec i k b : at_key i k b = true <-> rb_index b = i /\ rb_num b = k.
Proof. unfold at_key. rewrite andb_true_iff, !Z.eqb_eq. tauto. Qed.
Lemma bank_at_none L i k : free (bank_at L i k) = true -> ~ In (i, k) (map (fun b => (rb_index b, rb_num b)) L).
Proof.
  unfold bank_at. destruct (find (at_key i k) L) eqn:F; [discriminate|]. intros _ I. apply in_map_iff in I as (b & E & I). pose proof (find_none _ _ F b I) as N.
  assert (at_key i k b = true) by (apply at_key_spec; inversion E; auto). congruence.
Qed.
Lemma bank_at_some L i k b : bank_at L i k = Some b -> In b L /\ rb_index b = i /\ rb_num b = k.
Proof. intros F. apply find_some in F as [I E]. apply at_key_spec in E. tauto. Qed.
Lemma info_none L m : free (info_of L m) = true -> ~ In m (map mi_mint L).
Proof.
  unfold info_of. destruct (find _ L) eqn:F; [discriminate|]. intros _ I. apply in_map_iff in I as (x & E & I). pose proof (find_none _ _ F x I) as N. cbv beta in N. apply Z.eqb_neq in N. auto.
Qed.
Lemma info_some L m x : info_of L m = Some x -> In x L /\ mi_mint x = m.
Proof. intros F. apply find_some in F as [I E]. apply Z.eqb_eq in E. tauto. Qed.
Lemma guard_inv c (A : Type) (k : option A) (v : A) : match guard c with Some _ => k | None => None end = Some v -> c = true /\ k = Some v.
Proof. destruct c; [intros H; split; [reflexivity|exact H]|discriminate]. Qed.
Lemma same_key L b b' : NoDup (map (fun b => (rb_index b, rb_num b)) L) -> In b L -> In b' L -> rb_index b = rb_index b' -> rb_num b = rb_num b' -> b = b'.
Proof.
  induction L as [|c L IH]; [intros _ []|]. intros N I I' E E'. cbn [map] in N. inversion N as [|? ? NI N']; subst.
  assert (K : forall x, In x L -> rb_index x = rb_index c -> rb_num x = rb_num c -> False).
  { intros x X X1 X2. apply NI. apply in_map_iff. exists x. rewrite X1, X2. auto. }
  destruct I as [->|I], I' as [->|I']; [reflexivity|exfalso; apply (K b' I'); congruence|exfalso; apply (K b I); congruence|apply IH; assumption].
Qed.
Lemma same_mint L x y : NoDup (map mi_mint L) -> In x L -> In y L -> mi_mint x = mi_mint y -> x = y.
Proof.
  induction L as [|c L IH]; [intros _ []|]. intros N I I' E. cbn [map] in N. inversion N as [|? ? NI N']; subst.
  destruct I as [<-|I], I' as [<-|I'].
  - reflexivity.
  - exfalso. apply NI. rewrite E. apply in_map. exact I'.
  - exfalso. apply NI. rewrite <- E. apply in_map. exact I.
  - apply IH; assumption.
Qed.
(** two infos for one index are the same *)
Lemma same_index s x y : inv s -> In x (r_mints s) -> In y (r_mints s) -> mi_index x = mi_index y -> x = y.
Proof.
  intros (N & NM & IO & _) I J E. destruct (IO x I) as (n & B & _ & A). destruct (IO y J) as (n' & B' & _ & A'). specialize (A 0%nat ltac:(lia)). specialize (A' 0%nat ltac:(lia)).
  pose proof (same_key _ _ _ N A A') as K. cbn [rb_index rb_num] in K. specialize (K E eq_refl). inversion K. apply (same_mint _ _ _ NM I J). assumption.
Qed.
Lemma nodup_filter {A B} (f : A -> B) p L : NoDup (map f L) -> NoDup (map f (filter p L)).
Proof.
  induction L as [|x L IH]; [trivial|]. cbn [map filter]. intros N. inversion N as [|? ? NI N']; subst. destruct (p x); [|apply IH, N']. cbn [map]. constructor; [|apply IH, N'].
  intros I. apply NI. apply in_map_iff in I as (y & E & I). apply filter_In in I as [I _]. apply in_map_iff. eauto.
Qed.
Lemma step_inv coin pc s t o s' : inv s -> rstep coin pc s t o = Some s' -> inv s'.
Proof.
  intros INV E. pose proof INV as (N & NM & IO & BO & M1 & M2 & PN & RS). destruct o as [tl i m|i k n m|m|f c e i bi bk qi qk band|e i|i st|i]; cbn [rstep] in E.
  - unfold token_register in E. do 2 apply guard_inv in E as [? E]. apply some_inj in E. subst s'. match goal with H : free _ && free _ = true |- _ => apply andb_true_iff in H as [F1 F2] end.
    apply bank_at_none in F1. apply info_none in F2. unfold inv. cbn [r_banks r_mints r_markets r_reserved r_perps map rb_index rb_num mi_mint].
    split; [constructor; assumption|]. split; [constructor; assumption|]. split; [|split; [|auto]].
    + intros x [<-|I].
      * exists 1%nat. cbn [mi_banks mi_index mi_mint]. split; [lia|]. split; [reflexivity|]. intros k K. replace k with 0%nat by lia. left. reflexivity.
      * destruct (IO x I) as (n & A1 & A2 & A3). exists n. split; [exact A1|]. split; [exact A2|]. intros k K. right. apply A3, K.
    + intros b [<-|I].
      * exists (mkMI m i [(i, 0)]). split; [left; reflexivity|]. cbn. auto.
      * destruct (BO b I) as (x & X1 & X2). exists x. split; [right; exact X1|exact X2].
  - unfold token_add_bank in E. apply guard_inv in E as [_ E]. destruct (bank_at _ i k) as [b|] eqn:B; [|discriminate]. apply guard_inv in E as [BM E].
    destruct (info_of _ m) as [x|] eqn:X; [|discriminate]. apply guard_inv in E as [XI E]. apply guard_inv in E as [F E]. cbv zeta in E. apply guard_inv in E as [SL E]. apply some_inj in E. subst s'.
    apply bank_at_none in F. apply bank_at_some in B as (B & BI & BK). apply info_some in X as (X & XM). apply Z.eqb_eq in BM, XI. apply andb_true_iff in SL as [SL1 SL2]. apply Z.ltb_lt in SL1. apply Z.eqb_eq in SL2.
    destruct (IO x X) as (c & C1 & C2 & C3). assert (LC : length (mi_banks x) = c) by (rewrite C2; unfold nums; rewrite map_length, seq_length; reflexivity). rewrite LC in *. rewrite BM.
    assert (XU : forall y, In y (r_mints s) -> mi_mint y = m -> y = x) by (intros y Y YM; apply (same_mint _ _ _ NM Y X); congruence).
    set (up := fun y => if mi_mint y =? m then mkMI (mi_mint y) (mi_index y) (mi_banks y ++ [(i, n)]) else y).
    assert (UM : forall y, mi_mint (up y) = mi_mint y) by (intros y; unfold up; destruct (_ =? _); reflexivity).
    assert (UI : forall y, mi_index (up y) = mi_index y) by (intros y; unfold up; destruct (_ =? _); reflexivity).
    assert (UB : forall y p, In p (mi_banks y) -> In p (mi_banks (up y))) by (intros y p Hp; unfold up; destruct (_ =? _); [apply in_app_iff; left|]; exact Hp).
    unfold inv. cbn [r_banks r_mints r_markets r_reserved r_perps map rb_index rb_num]. split; [constructor; assumption|].
    split; [rewrite map_map; rewrite (map_ext _ mi_mint) by exact UM; exact NM|]. split; [|split; [|auto]].
    + intros y0 I. apply in_map_iff in I as (y & <- & I). destruct (Z.eq_dec (mi_mint y) m) as [YM|YM].
      * rewrite (XU y I YM). exists (S c). cbn [r_banks]. unfold info_ok. rewrite UM, UI. split; [lia|]. unfold up. rewrite (proj2 (Z.eqb_eq _ _) XM). cbn [mi_banks mi_index mi_mint].
        split; [rewrite C2; unfold nums; rewrite seq_S, map_app; cbn [map]; rewrite XI, SL2; reflexivity|].
        intros j J. destruct (Nat.eq_dec j c) as [->|NE]; [left; rewrite XI, SL2, XM; reflexivity|right; apply C3; lia].
      * assert (UY : up y = y) by (unfold up; rewrite (proj2 (Z.eqb_neq _ _) YM); reflexivity). rewrite UY. destruct (IO y I) as (d & D1 & D2 & D3). exists d. split; [exact D1|]. split; [exact D2|]. intros j J. right. apply D3, J.
    + intros b0 [<-|I].
      * exists (up x). cbn [rb_mint rb_index rb_num]. rewrite UM, UI. split; [apply in_map, X|]. split; [exact XM|]. split; [exact XI|]. unfold up. rewrite (proj2 (Z.eqb_eq _ _) XM). cbn [mi_banks]. apply in_app_iff. right. left. reflexivity.
      * destruct (BO b0 I) as (y & Y1 & Y2 & Y3 & Y4). exists (up y). rewrite UM, UI. split; [apply in_map, Y1|]. split; [exact Y2|]. split; [exact Y3|]. apply UB, Y4.
  - unfold token_deregister in E. apply guard_inv in E as [_ E]. destruct (info_of _ m) as [x|] eqn:X; [|discriminate]. apply info_some in X as (X & XM). cbv zeta in E. apply some_inj in E. subst s'.
    set (closed := fun b => existsb (fun '(i, k) => at_key i k b) (mi_banks x)). destruct (IO x X) as (c & C1 & C2 & C3).
    assert (CL : forall b, In b (r_banks s) -> closed b = true <-> rb_mint b = m).
    { intros b I. unfold closed. rewrite existsb_exists. split.
      - intros ((i, k) & P & A). apply at_key_spec in A as [A1 A2]. rewrite C2 in P. apply in_nums in P as [P1 P2]. specialize (C3 (Z.to_nat k) ltac:(lia)). rewrite Z2Nat.id in C3 by lia.
        assert (Q : b = mkRB (mi_index x) k (mi_mint x)) by (apply (same_key _ _ _ N I C3); cbn [rb_index rb_num]; congruence). rewrite Q. exact XM.
      - intros BM. destruct (BO b I) as (y & Y1 & Y2 & Y3 & Y4). assert (y = x) by (apply (same_mint _ _ _ NM Y1 X); congruence). subst y. exists (rb_index b, rb_num b). split; [exact Y4|]. apply at_key_spec. auto. }
    unfold inv. cbn [r_banks r_mints r_markets r_reserved r_perps]. split; [apply nodup_filter, N|]. split; [apply nodup_filter, NM|]. split; [|split; [|auto]].
    + intros y I. apply filter_In in I as [I YM]. apply negb_true_iff, Z.eqb_neq in YM. destruct (IO y I) as (d & D1 & D2 & D3). exists d. split; [exact D1|]. split; [exact D2|]. cbn [r_banks]. intros j J. specialize (D3 j J).
      apply filter_In. split; [exact D3|]. apply negb_true_iff. apply not_true_is_false. intros Q. apply (CL _ D3) in Q. cbn [rb_mint] in Q. contradiction.
    + intros b I. apply filter_In in I as [I Q]. apply negb_true_iff in Q. destruct (BO b I) as (y & Y1 & Y2 & Y3 & Y4). exists y. split; [|auto]. apply filter_In. split; [exact Y1|]. apply negb_true_iff, Z.eqb_neq. intros K.
      rewrite Y2 in K. apply CL in K; [|exact I]. unfold closed in K. congruence.
  - unfold serum3_register_market in E. destruct (bank_at _ bi bk) as [b|]; [|discriminate]. destruct (bank_at _ qi qk) as [q|]; [|discriminate]. do 3 apply guard_inv in E as [? E]. apply some_inj in E. subst s'.
    match goal with H : free _ && negb _ = true |- _ => apply andb_true_iff in H as [F1 F2] end. unfold inv. cbn [r_banks r_mints r_markets r_reserved r_perps map sm_index sm_ext].
    assert (NR : ~ In i (r_reserved s)). { intros I. apply negb_true_iff in F2. assert (existsb (Z.eqb i) (r_reserved s) = true) by (apply existsb_exists; exists i; split; [exact I|apply Z.eqb_refl]). congruence. }
    assert (NE : ~ In e (map sm_ext (r_markets s))). { unfold market_at in F1. destruct (find _ _) eqn:F; [discriminate|]. intros I. apply in_map_iff in I as (y & Y & I). pose proof (find_none _ _ F y I) as K. cbv beta in K. apply Z.eqb_neq in K. auto. }
    split; [exact N|]. split; [exact NM|]. split; [exact IO|]. split; [exact BO|]. split; [constructor; [rewrite <- RS; exact NR|exact M1]|]. split; [constructor; assumption|]. split; [exact PN|].
    intros j. cbn [In]. rewrite RS. tauto.
  - unfold serum3_deregister_market in E. apply guard_inv in E as [_ E]. destruct (market_at _ e) as [x|] eqn:X; [|discriminate]. apply guard_inv in E as [G E]. apply some_inj in E. subst s'.
    apply andb_true_iff in G as [G _]. apply Z.eqb_eq in G. apply find_some in X as [X XE]. apply Z.eqb_eq in XE. unfold inv. cbn [r_banks r_mints r_markets r_reserved r_perps].
    split; [exact N|]. split; [exact NM|]. split; [exact IO|]. split; [exact BO|]. split; [apply nodup_filter, M1|]. split; [apply nodup_filter, M2|]. split; [exact PN|].
    assert (U : forall y, In y (r_markets s) -> sm_index y = i <-> sm_ext y = e).
    { intros y Y. assert (Q : forall (f : smarket -> Z) L, NoDup (map f L) -> In x L -> In y L -> f y = f x -> y = x).
      { clear. intros f L. induction L as [|c L IH]; [intros _ []|]. intros N I J K. cbn [map] in N. inversion N as [|? ? NI N']; subst.
        destruct I as [<-|I], J as [<-|J].
        - reflexivity.
        - exfalso. apply NI. rewrite <- K. apply in_map. exact J.
        - exfalso. apply NI. rewrite K. apply in_map. exact I.
        - apply IH; assumption. }
      split; intros K; [rewrite (Q sm_index _ M1 X Y) by congruence; exact XE|rewrite (Q sm_ext _ M2 X Y) by congruence; exact G]. }
    intros j. rewrite filter_In, RS, negb_true_iff, Z.eqb_neq, !in_map_iff. split.
    + intros ((y & YJ & Y) & J). exists y. split; [exact YJ|]. apply filter_In. split; [exact Y|]. apply negb_true_iff, Z.eqb_neq. intros K. apply U in K; [|exact Y]. congruence.
    + intros (y & YJ & Y). apply filter_In in Y as [Y K]. apply negb_true_iff, Z.eqb_neq in K. split; [eauto|]. intros ->. apply K, U; assumption.
  - unfold perp_create_market in E. apply guard_inv in E as [F E]. apply some_inj in E. subst s'. unfold inv. cbn [r_banks r_mints r_markets r_reserved r_perps map fst].
    split; [exact N|]. split; [exact NM|]. split; [exact IO|]. split; [exact BO|]. split; [exact M1|]. split; [exact M2|]. split; [|exact RS]. constructor; [|exact PN].
    unfold perp_at in F. destruct (find _ _) eqn:Q; [discriminate|]. intros I. apply in_map_iff in I as (y & Y & I). pose proof (find_none _ _ Q y I) as K. cbv beta in K. apply Z.eqb_neq in K. auto.
  - unfold perp_close_market in E. apply guard_inv in E as [_ E]. destruct (perp_at _ _); [|discriminate]. apply some_inj in E. subst s'. unfold inv. cbn [r_banks r_mints r_markets r_reserved r_perps].
    split; [exact N|]. split; [exact NM|]. split; [exact IO|]. split; [exact BO|]. split; [exact M1|]. split; [exact M2|]. split; [apply nodup_filter, PN|exact RS].
Qed.
Lemma run_inv coin pc H s : inv s -> inv (rrun coin pc s H).
Proof.
  revert s. induction H as [|(t, o) H IH]; intros s I; [exact I|]. cbn [rrun]. apply IH. destruct (rstep coin pc s t o) eqn:E; [exact (step_inv _ _ _ _ _ _ I E)|exact I].
Qed.
Lemma inv0 : inv reg0.
Proof. unfold inv, reg0. cbn. do 2 (split; [constructor|]). split; [intros x []|]. split; [intros b []|]. do 3 (split; [constructor|]). intros i. reflexivity. Qed.
Lemma inv_spec s : inv s -> nothing_twice s.
Proof.
  intros INV. pose proof INV as (N & NM & IO & BO & M1 & M2 & PN & RS). unfold nothing_twice.
  assert (T : forall i m, token s i m -> exists x, In x (r_mints s) /\ mi_mint x = m /\ mi_index x = i).
  { intros i m (k & I). destruct (BO _ I) as (x & X1 & X2 & X3 & _). exists x. auto. }
  split; [|split; [|split; [exact N|split; [|split; [|auto]]]]].
  - intros i m m' A B. destruct (T _ _ A) as (x & X1 & X2 & X3). destruct (T _ _ B) as (y & Y1 & Y2 & Y3). assert (x = y) by (apply (same_index s); congruence). congruence.
  - intros i i' m A B. destruct (T _ _ A) as (x & X1 & X2 & X3). destruct (T _ _ B) as (y & Y1 & Y2 & Y3). assert (x = y) by (apply (same_mint _ _ _ NM X1 Y1); congruence). congruence.
  - intros i m A. destruct (T _ _ A) as (x & X1 & X2 & X3). destruct (IO x X1) as (n & C1 & C2 & C3). split; [specialize (C3 0%nat ltac:(lia)); rewrite X2, X3 in C3; exact C3|].
    intros k K. destruct (BO _ K) as (y & Y1 & Y2 & Y3 & Y4). cbn [rb_mint rb_index rb_num] in *. assert (y = x) by (apply (same_mint _ _ _ NM Y1 X1); congruence). subst y. rewrite C2 in Y4. apply in_nums in Y4. lia.
  - intros i m A. destruct (T _ _ A) as (x & X1 & X2 & X3). exists x. split; [exact X1|]. split; [exact X2|]. split; [exact X3|]. destruct (IO x X1) as (n & C1 & C2 & C3). intros k. rewrite C2, in_nums. split.
    + intros [_ K]. specialize (C3 (Z.to_nat k) ltac:(lia)). rewrite Z2Nat.id in C3 by lia. rewrite X2, X3 in C3. exact C3.
    + intros K. destruct (BO _ K) as (y & Y1 & Y2 & Y3 & Y4). cbn [rb_mint rb_index rb_num] in *. assert (y = x) by (apply (same_mint _ _ _ NM Y1 X1); congruence). subst y. rewrite C2 in Y4. apply in_nums in Y4. exact Y4.
Qed.

(** ** C104 *)
Theorem C104_unique coin pc H : nothing_twice (rrun coin pc reg0 H).
Proof. apply inv_spec, run_inv, inv0. Qed.
(** As long as the group is not in testing mode, nothing changes its meaning: tokens and markets stay as they are. *)
Lemma step_keeps coin pc s o s' : rstep coin pc s false o = Some s' ->
  (forall b, In b (r_banks s) -> In b (r_banks s')) /\ (forall x, In x (r_markets s) -> In x (r_markets s')) /\ (forall p, In p (r_perps s) -> In p (r_perps s')).
Proof.
  intros E. destruct o as [tl i m|i k n m|m|f c e i bi bk qi qk band|e i|i st|i]; cbn [rstep] in E; try discriminate E.
  - unfold token_register in E. do 2 apply guard_inv in E as [_ E]. apply some_inj in E. subst s'. cbn [r_banks r_markets r_perps]. split; [intros b I; right; exact I|auto].
  - unfold serum3_register_market in E. destruct (bank_at _ bi bk) as [b|]; [|discriminate]. destruct (bank_at _ qi qk) as [q|]; [|discriminate]. do 3 apply guard_inv in E as [_ E]. apply some_inj in E. subst s'.
    cbn [r_banks r_markets r_perps]. split; [auto|]. split; [intros x I; right; exact I|auto].
  - unfold perp_create_market in E. apply guard_inv in E as [_ E]. apply some_inj in E. subst s'. cbn [r_banks r_markets r_perps]. split; [auto|]. split; [auto|]. intros x I; right; exact I.
Qed.
Theorem C104_lasting coin pc H s : (forall t o, In (t, o) H -> t = false) ->
  (forall i m, token s i m -> token (rrun coin pc s H) i m) /\ (forall x, In x (r_markets s) -> In x (r_markets (rrun coin pc s H))) /\ (forall p, In p (r_perps s) -> In p (r_perps (rrun coin pc s H))).
Proof.
  enough (K : (forall t o, In (t, o) H -> t = false) -> (forall b, In b (r_banks s) -> In b (r_banks (rrun coin pc s H))) /\ (forall x, In x (r_markets s) -> In x (r_markets (rrun coin pc s H))) /\ (forall p, In p (r_perps s) -> In p (r_perps (rrun coin pc s H)))).
  { intros T. destruct (K T) as (A & B & C). split; [|auto]. intros i m (k & I). exists k. apply A, I. }
  revert s. induction H as [|(t, o) H IH]; intros s T; [cbn [rrun]; auto|]. cbn [rrun]. assert (t = false) by (apply (T t o); left; reflexivity). subst t.
  destruct (rstep coin pc s false o) as [s'|] eqn:E.
  - destruct (step_keeps _ _ _ _ _ E) as (A & B & C). destruct (IH s' (fun t o I => T t o (or_intror I))) as (A' & B' & C'). auto.
  - apply IH. intros t o' I. apply (T t o'). right. exact I.
Qed.
(** The two tokens of a spot market are those its external market trades; a market listed by the fast listing admin has a price band of 1, or of 19 for tokens
    that cannot be collateral or borrowed. *)
Theorem C104_market coin pc H : (forall t o, In (t, o) H -> t = false) ->
  forall x, In x (r_markets (rrun coin pc reg0 H)) -> token (rrun coin pc reg0 H) (sm_base x) (coin (sm_ext x)) /\ token (rrun coin pc reg0 H) (sm_quote x) (pc (sm_ext x)).
Proof.
  intros T. set (good := fun s => forall x, In x (r_markets s) -> token s (sm_base x) (coin (sm_ext x)) /\ token s (sm_quote x) (pc (sm_ext x))).
  enough (K : forall s, good s -> good (rrun coin pc s H)) by (apply K; intros x []). induction H as [|(t, o) H IH]; intros s G; [exact G|]. cbn [rrun]. apply IH; [intros t' o' I; apply (T t' o'); right; exact I|].
  assert (t = false) by (apply (T t o); left; reflexivity). subst t. destruct (rstep coin pc s false o) as [s'|] eqn:E; [|exact G]. pose proof (step_keeps _ _ _ _ _ E) as (A & _).
  assert (TK : forall i m, token s i m -> token s' i m) by (intros i m (k & I); exists k; apply A, I).
  assert (OLD : forall x, In x (r_markets s) -> token s' (sm_base x) (coin (sm_ext x)) /\ token s' (sm_quote x) (pc (sm_ext x))) by (intros x I; destruct (G x I); auto).
  destruct o as [tl i m|i k n m|m|f c e i bi bk qi qk band|e i|i st|i]; cbn [rstep] in E; try discriminate E.
  - unfold token_register in E. do 2 apply guard_inv in E as [_ E]. apply some_inj in E. subst s'. exact OLD.
  - unfold serum3_register_market in E. destruct (bank_at _ bi bk) as [b|] eqn:B; [|discriminate]. destruct (bank_at _ qi qk) as [q|] eqn:Q; [|discriminate].
    apply guard_inv in E as [M E]. do 2 apply guard_inv in E as [_ E]. apply some_inj in E. subst s'. apply bank_at_some in B as (B & _ & _). apply bank_at_some in Q as (Q & _ & _).
    apply andb_true_iff in M as [M1 M2]. apply Z.eqb_eq in M1, M2. intros x [<-|I]; [|apply OLD, I]. cbn [sm_base sm_quote sm_ext]. rewrite M1, M2. split; [exists (rb_num b)|exists (rb_num q)]; cbn [r_banks]; [destruct b|destruct q]; assumption.
  - unfold perp_create_market in E. apply guard_inv in E as [_ E]. apply some_inj in E. subst s'. exact OLD.
Qed.
Theorem C104_band coin pc s c ext i bi bk qi qk band s' : serum3_register_market coin pc true c s ext i bi bk qi qk band = Some s' -> band = 1 \/ c = true /\ band = 19.
Proof.
  unfold serum3_register_market. destruct (bank_at _ bi bk); [|discriminate]. destruct (bank_at _ qi qk); [|discriminate]. intros E. apply guard_inv in E as [_ E]. apply guard_inv in E as [B _].
  cbn [negb orb] in B. apply Z.eqb_eq in B. destruct c; auto.
Qed.
(** A token or market that is free can be registered. *)
Theorem C104_available coin pc H i m : (forall m', ~ token (rrun coin pc reg0 H) i m') -> (forall i', ~ token (rrun coin pc reg0 H) i' m) -> 0 < i < 65535 ->
  exists s', token_register true (rrun coin pc reg0 H) i m = Some s' /\ token s' i m.
Proof.
  pose proof (run_inv coin pc H reg0 inv0) as INV. set (s := rrun coin pc reg0 H) in *. clearbody s. intros A B R. destruct INV as (N & NM & IO & _).
  unfold token_register. replace (negb (true && (i =? 0)) && negb (i =? 65535)) with true by (symmetry; rewrite andb_true_iff, !negb_true_iff; cbn [andb]; rewrite !Z.eqb_neq; lia).
  assert (F1 : free (bank_at (r_banks s) i 0) = true). { destruct (bank_at _ i 0) as [b|] eqn:E; [|reflexivity]. exfalso. apply bank_at_some in E as (I & E1 & E2). apply (A (rb_mint b)). exists (rb_num b). destruct b; cbn in *; subst; exact I. }
  assert (F2 : free (info_of (r_mints s) m) = true). { destruct (info_of _ m) as [x|] eqn:E; [|reflexivity]. exfalso. apply info_some in E as (I & E1). destruct (IO x I) as (n & C1 & _ & C3). specialize (C3 0%nat ltac:(lia)). rewrite E1 in C3. apply (B (mi_index x)). eexists. exact C3. }
  rewrite F1, F2. cbn [guard andb]. eexists. split; [reflexivity|]. exists 0. left. reflexivity.
Qed.
(** In a testing group a token can be taken back although a market trades it; its index can then be given to another mint, and the market's tokens are not those of
    its external market any more. *)
Theorem C104_testing_refuted : ~ (forall coin pc H x, In x (r_markets (rrun coin pc reg0 H)) -> token (rrun coin pc reg0 H) (sm_base x) (coin (sm_ext x))).
Proof.
  intros C. specialize (C (fun e => e) (fun _ => 7) [(false, RRegister false 0 7); (false, RRegister true 1 5); (false, RMarket true false 5 3 1 0 0 0 1); (true, RDeregister 5); (true, RRegister true 1 6)] (mkSM 5 3 1 0 1)).
  destruct C as (k & I); [left; reflexivity|]. cbn in I. destruct I as [I|[I|[]]]; discriminate.
Qed.
Definition ex_hist : list (bool * rop) :=
  [(false, RRegister false 0 7); (false, RRegister true 1 5); (false, RRegister true 1 6); (false, RRegister true 2 5); (false, RMarket true false 5 3 1 0 0 0 1); (false, RMarket false false 9 3 1 0 0 0 4); (false, RPerp 0 0); (false, RPerp 0 1)].
Example C104_example : let s := rrun (fun e => 5) (fun _ => 7) reg0 ex_hist in
  (forall t o, In (t, o) ex_hist -> t = false) /\ r_banks s = [mkRB 1 0 5; mkRB 0 0 7] /\ r_markets s = [mkSM 5 3 1 0 1] /\ r_perps s = [(0, 0)] /\
  exists s', token_add_bank true s 1 0 1 5 = Some s' /\ In (mkRB 1 1 5) (r_banks s').
Proof.
  cbv zeta. split; [intros t o I; cbn in I; do 8 (destruct I as [I|I]; [congruence|]); destruct I|]. split; [reflexivity|]. split; [reflexivity|]. split; [reflexivity|]. eexists. split; [vm_compute; reflexivity|]. left. reflexivity.
Qed.
Print Assumptions C104_unique.
Print Assumptions C104_lasting.
Print Assumptions C104_market.
Print Assumptions C104_band.
Print Assumptions C104_available.
Print Assumptions C104_testing_refuted.
