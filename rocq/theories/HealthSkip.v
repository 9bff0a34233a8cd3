(** Skipping banks: the balances of the smaller cache are covered by the full one. *)
From Coq Require Import List ZArith Lia Bool Arith.
From Verif Require Import Fixed PerpTypes Health HealthSpec HealthFacts HealthDiv HealthOrders HealthMore.
Import ListNotations.
Open Scope Z_scope.

Inductive covers (X : list Z) : list tinfo -> list tinfo -> Prop :=
| cov_nil : covers X [] []
| cov_keep t x y A B : x <= y -> covers X A B -> covers X (add_spot t x :: A) (add_spot t y :: B)
| cov_skip t A B : 0 <= ti_spot t -> ~ In (ti_index t) X -> covers X A B -> covers X A (t :: B).
Lemma add_spot_0 t : add_spot t 0 = t.
Proof. destruct t. unfold add_spot. cbn. rewrite Z.add_0_r. reflexivity. Qed.
Lemma add_spot_add t x y : add_spot (add_spot t x) y = add_spot t (x + y).
Proof. unfold add_spot. cbn. f_equal. lia. Qed.

Definition keep (p : pos_in) : bool := pin_available p && pin_oracle_ok p.
Lemma build_tokens_skip X : forall L T, build_tokens true L = Some T -> Forall position_ok L ->
  (forall p, In p L -> keep p = false -> ~ In (ti_index (pin_info p)) X) ->
  T = map pin_info (filter keep L) /\ covers X T (map pin_info L).
Proof.
  induction L as [|p L IH]; intros T H F Hx; cbn [build_tokens] in H.
  - apply some_inj in H; subst. split; [reflexivity|constructor].
  - inversion F as [|? ? Fp FL]; subst. cbn [filter map]. unfold keep at 1. cbn [andb] in H.
    assert (Hx' : forall p, In p L -> keep p = false -> ~ In (ti_index (pin_info p)) X) by (intros; apply Hx; [right; assumption|assumption]).
    pose proof (Hx p (or_introl eq_refl)) as Hp. unfold keep in Hp.
    destruct (pin_available p); cbn [negb] in H.
    + destruct (pin_oracle_ok p); cbn [negb andb] in *.
      * destruct (build_tokens true L) as [T'|]; [|discriminate]. cbn [option_map] in H. apply some_inj in H; subst T.
        destruct (IH _ eq_refl FL Hx') as [-> C]. split; [reflexivity|]. rewrite <- (add_spot_0 (pin_info p)). apply cov_keep; [lia|exact C].
      * destruct (pin_nonneg p) eqn:En; [|discriminate]. destruct (IH _ H FL Hx') as [-> C]. split; [reflexivity|]. apply cov_skip; [apply Fp; exact En|apply Hp; reflexivity|exact C].
    + cbn [andb] in Hp |- *. destruct (pin_nonneg p) eqn:En; [|discriminate]. destruct (IH _ H FL Hx') as [-> C]. split; [reflexivity|]. apply cov_skip; [apply Fp; exact En|apply Hp; reflexivity|exact C].
Qed.
Lemma build_tokens_full L : build_tokens false (map complete L) = Some (map pin_info L).
Proof. induction L as [|p L IH]; [reflexivity|]. cbn [map build_tokens complete pin_available pin_oracle_ok pin_nonneg pin_info andb]. rewrite IH. reflexivity. Qed.

Lemma idx_add_spot_at T i x : map ti_index (add_spot_at T i x) = map ti_index T.
Proof. revert i. induction T as [|t T IH]; intros [|i]; cbn [add_spot_at map]; [reflexivity|reflexivity|reflexivity|rewrite IH; reflexivity]. Qed.
Lemma token_pos_idx A B idx : map ti_index A = map ti_index B -> token_pos A idx = token_pos B idx.
Proof.
  revert B. induction A as [|a A IH]; intros [|b B] H; try discriminate; [reflexivity|]. injection H as H1 H2. cbn [token_pos]. rewrite H1, (IH B H2). reflexivity.
Qed.
Lemma covers_incl X A B : covers X A B -> incl (map ti_index A) (map ti_index B).
Proof.
  induction 1 as [|t x y A B Hx _ IH|t A B _ _ _ IH]; [intros a []| |]; cbn [map].
  - intros a [<-|Ha]; [left; reflexivity|right; apply IH; exact Ha].
  - intros a Ha. right. apply IH; exact Ha.
Qed.
Lemma token_pos_in T idx : token_pos T idx <> None <-> In idx (map ti_index T).
Proof.
  induction T as [|t T IH]; cbn [token_pos map In]; [tauto|]. destruct (Z.eqb_spec (ti_index t) idx) as [->|N]; [split; intros; [left; reflexivity|discriminate]|].
  destruct (token_pos T idx) as [k|]; cbn [option_map].
  - split; [intros _; right; apply IH; discriminate|discriminate].
  - split; [congruence|]. intros [H|H]; [congruence|]. apply IH in H. congruence.
Qed.
Lemma covers_add_right X A B : covers X A B -> forall j x, 0 <= x -> covers X A (add_spot_at B j x).
Proof.
  induction 1 as [|t u v A B Hu C IH|t A B Ht Hn C IH]; intros j x Hx.
  - destruct j; constructor.
  - destruct j as [|j]; cbn [add_spot_at]; [rewrite add_spot_add; apply cov_keep; [lia|exact C]|apply cov_keep; [exact Hu|apply IH; exact Hx]].
  - destruct j as [|j]; cbn [add_spot_at]; [apply cov_skip; [unfold add_spot; cbn [ti_spot]; lia|exact Hn|exact C]|apply cov_skip; [exact Ht|exact Hn|apply IH; exact Hx]].
Qed.
Lemma covers_add X A B : covers X A B -> forall idx i j x, NoDup (map ti_index B) -> token_pos A idx = Some i -> token_pos B idx = Some j ->
  covers X (add_spot_at A i x) (add_spot_at B j x).
Proof.
  induction 1 as [|t u v A B Hu C IH|t A B Ht Hn C IH]; intros idx i j x N Hi Hj.
  - discriminate.
  - cbn [map] in N. inversion N as [|? ? N1 N2]; subst. cbn [token_pos] in Hi, Hj. cbn [add_spot ti_index] in Hi, Hj.
    destruct (ti_index t =? idx).
    + apply some_inj in Hi, Hj. subst i j. cbn [add_spot_at]. rewrite !add_spot_add. apply cov_keep; [lia|exact C].
    + destruct (token_pos A idx) as [i'|] eqn:Ei; [|discriminate]. destruct (token_pos B idx) as [j'|] eqn:Ej; [|discriminate]. cbn [option_map] in Hi, Hj. apply some_inj in Hi, Hj. subst i j.
      cbn [add_spot_at]. apply cov_keep; [exact Hu|]. eapply IH; eassumption.
  - cbn [map] in N. inversion N as [|? ? N1 N2]; subst. cbn [token_pos] in Hj. destruct (Z.eqb_spec (ti_index t) idx) as [E|E].
    + exfalso. apply N1. rewrite E. apply (covers_incl _ _ _ C). apply token_pos_in. congruence.
    + destruct (token_pos B idx) as [j'|] eqn:Ej; [|discriminate]. cbn [option_map] in Hj. apply some_inj in Hj; subst j. cbn [add_spot_at]. apply cov_skip; [exact Ht|exact Hn|]. eapply IH; eassumption.
Qed.
Lemma of_int_nonneg n : 0 <= n -> 0 <= of_int n.
Proof. intros. unfold of_int. pose proof fone_pos. nia. Qed.
Lemma build_serum_idx skip O : forall T T' R, build_serum skip O T = Some (T', R) -> map ti_index T' = map ti_index T.
Proof.
  induction O as [|s O IH]; intros T T' R H; cbn [build_serum] in H; [apply some_inj in H; injection H as <- <-; reflexivity|].
  destruct (token_pos T (sin_base s)) as [b|]; [destruct (token_pos T (sin_quote s)) as [q|]|].
  - destruct (new_sinfo _ _ _ _ _ _) as [si|]; [|discriminate]. destruct (build_serum skip O _) as [[T2 R2]|] eqn:E; [|discriminate]. apply some_inj in H. injection H as <- <-.
    rewrite (IH _ _ _ E), !idx_add_spot_at. reflexivity.
  - destruct skip; [|discriminate]. eapply IH; eassumption.
  - destruct skip; [|discriminate]. eapply IH; eassumption.
Qed.
Lemma build_serum_covers X O : Forall free_ok O -> forall A B A' B' RA RB, covers X A B -> NoDup (map ti_index B) ->
  build_serum true O A = Some (A', RA) -> build_serum false O B = Some (B', RB) -> covers X A' B'.
Proof.
  induction 1 as [|s O [F1 F2] FO IH]; intros A B A' B' RA RB C N HA HB; cbn [build_serum] in HA, HB.
  - apply some_inj in HA, HB. injection HA as <- <-. injection HB as <- <-. exact C.
  - destruct (token_pos B (sin_base s)) as [b'|] eqn:Eb'; [|discriminate]. destruct (token_pos B (sin_quote s)) as [q'|] eqn:Eq'; [|discriminate].
    destruct (new_sinfo _ _ _ b' q' _) as [si'|]; [|discriminate]. destruct (build_serum false O _) as [[T2 R2]|] eqn:E2; [|discriminate]. apply some_inj in HB. injection HB as <- <-.
    assert (N1 : NoDup (map ti_index (add_spot_at B b' (of_int (oo_base_free (sin_oo s)))))) by (rewrite idx_add_spot_at; exact N).
    assert (N2 : NoDup (map ti_index (add_spot_at (add_spot_at B b' (of_int (oo_base_free (sin_oo s)))) q' (of_int (oo_quote_free (sin_oo s)))))) by (rewrite !idx_add_spot_at; exact N).
    assert (Skip : covers X A (add_spot_at (add_spot_at B b' (of_int (oo_base_free (sin_oo s)))) q' (of_int (oo_quote_free (sin_oo s)))))
      by (apply covers_add_right; [apply covers_add_right; [exact C|apply of_int_nonneg; exact F1]|apply of_int_nonneg; exact F2]).
    destruct (token_pos A (sin_base s)) as [b|] eqn:Eb; [|eapply IH; eassumption]. destruct (token_pos A (sin_quote s)) as [q|] eqn:Eq; [|eapply IH; eassumption].
    destruct (new_sinfo _ _ _ b q _) as [si|]; [|discriminate]. destruct (build_serum true O _) as [[T1 R1]|] eqn:E1; [|discriminate]. apply some_inj in HA. injection HA as <- <-.
    eapply IH; [|exact N2|exact E1|exact E2]. eapply covers_add; [|exact N1| |].
    + eapply covers_add; [exact C|exact N|exact Eb|exact Eb'].
    + rewrite (token_pos_idx _ A) by apply idx_add_spot_at. exact Eq.
    + rewrite (token_pos_idx _ B) by apply idx_add_spot_at. exact Eq'.
Qed.
Lemma build_serum_free skip O : Forall all_free O -> forall T T' R, build_serum skip O T = Some (T', R) ->
  Forall (fun s => si_res_base s = 0 /\ si_res_quote s = 0 /\ si_base_as_quote s = 0 /\ si_quote_as_base s = 0) R.
Proof.
  induction 1 as [|s O [F1 F2] FO IH]; intros T T' R H; cbn [build_serum] in H; [apply some_inj in H; injection H as <- <-; constructor|].
  destruct (token_pos T (sin_base s)) as [b|]; [destruct (token_pos T (sin_quote s)) as [q|]|].
  - destruct (new_sinfo _ _ _ _ _ _) as [si|] eqn:Es; [|discriminate]. destruct (build_serum skip O _) as [[T2 R2]|] eqn:E; [|discriminate]. apply some_inj in H. injection H as <- <-.
    constructor; [|eapply IH; exact E]. unfold new_sinfo in Es. rewrite F1, F2, !Z.sub_diag in Es. destruct (_ || _); [discriminate|]. apply some_inj in Es. subst si. cbn [si_res_base si_res_quote si_base_as_quote si_quote_as_base].
    change (of_int 0) with 0. rewrite !fmul_0_l. auto.
  - destruct skip; [|discriminate]. eapply IH; eassumption.
  - destruct skip; [|discriminate]. eapply IH; eassumption.
Qed.
Lemma covers_sum P ty A B : covers (map pi_settle P) A B -> Forall token_ok B ->
  sum (map (fun t => contribution t ty (token_balance P ty t)) A) <= sum (map (fun t => contribution t ty (token_balance P ty t)) B).
Proof.
  induction 1 as [|t x y A B Hxy C IH|t A B Ht Hn C IH]; intros F; [reflexivity| |]; inversion F as [|? ? Ft FB]; subst; cbn [map]; rewrite !sum_cons; specialize (IH FB).
  - assert (contribution (add_spot t x) ty (token_balance P ty (add_spot t x)) <= contribution (add_spot t y) ty (token_balance P ty (add_spot t y))); [|lia].
    assert (E : forall b, contribution (add_spot t x) ty b = contribution (add_spot t y) ty b) by (intros b; destruct ty; reflexivity). rewrite E.
    apply contribution_le; [apply stricter_refl|exact Ft|]. unfold token_balance. cbn [add_spot ti_spot ti_index]. lia.
  - assert (E : token_balance P ty t = ti_spot t).
    { unfold token_balance. enough (sum (map (fun pi => if pi_settle pi =? ti_index t then hupnl pi ty else 0) P) = 0) by lia. clear -Hn. induction P as [|pi P IH]; [reflexivity|].
      cbn [map] in Hn |- *. rewrite sum_cons. cbn [In] in Hn. rewrite IH by tauto. destruct (Z.eqb_spec (pi_settle pi) (ti_index t)); [tauto|reflexivity]. }
    rewrite E. assert (0 <= contribution t ty (ti_spot t)); [|lia]. unfold contribution. destruct (Z.ltb_spec (ti_spot t) 0); [lia|].
    apply fmul_nonneg; [lia|]. apply (asset_wp_le t ty ty (stricter_refl ty) Ft).
Qed.
Lemma token_ok_add_spot_at T i x : Forall token_ok T -> Forall token_ok (add_spot_at T i x).
Proof. intros F. revert i. induction F as [|t T Ht F IH]; intros [|i]; cbn [add_spot_at]; constructor; auto. Qed.
Lemma build_serum_ok skip O : forall T T' R, build_serum skip O T = Some (T', R) -> Forall token_ok T -> Forall token_ok T'.
Proof.
  induction O as [|s O IH]; intros T T' R H F; cbn [build_serum] in H; [apply some_inj in H; injection H as <- <-; exact F|].
  destruct (token_pos T (sin_base s)) as [b|]; [destruct (token_pos T (sin_quote s)) as [q|]|].
  - destruct (new_sinfo _ _ _ _ _ _) as [si|]; [|discriminate]. destruct (build_serum skip O _) as [[T2 R2]|] eqn:E; [|discriminate]. apply some_inj in H. injection H as <- <-.
    apply (IH _ _ _ E). repeat apply token_ok_add_spot_at. exact F.
  - destruct skip; [|discriminate]. eapply IH; eassumption.
  - destruct skip; [|discriminate]. eapply IH; eassumption.
Qed.
Lemma skipped_health L O P hs hf ty x y : Forall position_ok L -> Forall free_ok O -> Forall all_free O -> NoDup (map (fun p => ti_index (pin_info p)) L) ->
  build_cache true L O P = Some hs -> build_cache false (map complete L) O P = Some hf ->
  health hs ty = Some x -> health hf ty = Some y -> x <= y.
Proof.
  intros HL HF HA N Bs Bf Hx Hy. unfold build_cache in Bs, Bf. rewrite build_tokens_full in Bf.
  destruct (build_tokens true L) as [T|] eqn:ET; [|discriminate]. destruct (build_serum true O T) as [[T1 R1]|] eqn:E1; [|discriminate].
  destruct (build_serum false O (map pin_info L)) as [[T2 R2]|] eqn:E2; [|discriminate]. cbn [andb] in Bs, Bf. apply some_inj in Bf; subst hf.
  destruct (forallb _ P) eqn:EP; [|discriminate]. cbn [negb] in Bs. apply some_inj in Bs; subst hs. rewrite forallb_forall in EP.
  assert (NF : NoDup (map ti_index (map pin_info L))) by (rewrite map_map; exact N).
  assert (ST : T = map pin_info (filter keep L)).
  { apply (build_tokens_skip [] L T ET HL). intros p _ _ []. }
  assert (C : covers (map pi_settle P) T (map pin_info L)).
  { apply (build_tokens_skip _ L T ET HL). intros p Hp Kp Hs. apply in_map_iff in Hs as (pi & Es & Hpi). specialize (EP _ Hpi).
    destruct (token_pos T1 (pi_settle pi)) eqn:EQ; [|discriminate]. assert (In (pi_settle pi) (map ti_index T1)) as Hin by (apply token_pos_in; congruence).
    rewrite (build_serum_idx _ _ _ _ _ E1), ST, Es in Hin. rewrite map_map in Hin. apply in_map_iff in Hin as (p' & Ep' & Hp'). apply filter_In in Hp' as [Hp1 Hp2].
    assert (p' = p); [|congruence]. clear -N Hp Hp1 Ep'. induction L as [|a L IH]; [destruct Hp|]. cbn [map] in N. inversion N as [|? ? N1 N2]; subst.
    destruct Hp as [<-|Hp], Hp1 as [<-|Hp1]; [reflexivity| | |apply IH; assumption]; exfalso; apply N1; apply in_map_iff; eauto. }
  assert (C' : covers (map pi_settle P) T1 T2) by (eapply build_serum_covers; eassumption).
  assert (N2 : NoDup (map ti_index T2)) by (rewrite (build_serum_idx _ _ _ _ _ E2); exact NF).
  assert (TO : Forall token_ok T2).
  { eapply build_serum_ok; [exact E2|]. clear -HL. induction HL as [|p L [H _] _ IH]; constructor; assumption. }
  assert (N1 : NoDup (map ti_index T1)).
  { clear -C' N2. induction C' as [|t u v A B Hu C IH|t A B Ht Hn C IH]; cbn [map] in *; [constructor| |]; inversion N2; subst.
    - constructor; [|apply IH; assumption]. intros X. apply (covers_incl _ _ _ C) in X. cbn [add_spot ti_index] in *. contradiction.
    - apply IH; assumption. }
  apply health_no_reserved in Hx; [|exact (build_serum_free _ _ HA _ _ _ E1)]. apply health_no_reserved in Hy; [|exact (build_serum_free _ _ HA _ _ _ E2)].
  destruct Hx as (B1 & HB1 & ->). destruct Hy as (B2 & HB2 & ->). cbn [hc_tokens] in *.
  apply balances_map in HB1; [|exact N1]. apply balances_map in HB2; [|exact N2]. cbn [hc_tokens hc_perps] in HB1, HB2. subst B1 B2. rewrite !contributions_map.
  apply covers_sum; assumption.
Qed.
