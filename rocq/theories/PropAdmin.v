(** C91-C94: edits of settings by the group admin and the security admin. *)
From Coq Require Import List ZArith Lia Bool Arith.
From Verif Require Import Interest Bank Health HealthSpec HealthFacts HealthDiv HealthOrders Scaling LiqState PropHealth PropLiqState AdminEdit AdminSpec AdminFacts AdminHealth Fixed.
Import ListNotations.
Open Scope Z_scope.

(** ** C91: what the security admin can do to a token *)
Lemma may_edit_other e f : e_signer e <> e_admin e -> may_edit e f = true -> f = false /\ e_signer e = e_security e.
Proof.
  intros N H. unfold may_edit in H. destruct (Z.eqb_spec (e_admin e) (e_signer e)); [congruence|]. cbn [orb] in H. apply andb_true_iff in H as [H1 H2].
  apply negb_true_iff in H1. apply Z.eqb_eq in H2. auto.
Qed.
Lemma security_all e p t t' : e_signer e <> e_admin e -> params_ok p -> token_edit e p t = Some t' ->
  e_signer e = e_security e /\ exists s' L', tk_banks t' = s' :: L' /\ verify s' = true /\
  (forall r, p_ro p = Some r -> 0 <= r <= 2) /\
  Forall2 (fun s s' => edit_one e p s = Some (s', false)) (tk_banks t) (tk_banks t') /\
  t' = mkTok (opt (p_oracle p) (tk_oracle t)) (opt (p_fallback p) (tk_fallback t)) (opt (p_insurance p) (tk_insurance t)) (tk_banks t').
Proof.
  intros N PO H. apply token_edit_inv in H as (f & L & s & E & M & Hd & V & ->). cbn [tk_banks]. apply may_edit_other in M as [-> S]; [|exact N].
  split; [exact S|]. destruct L as [|s' L]; [discriminate|]. cbn [head] in Hd. apply some_inj in Hd. subst s'. exists s, L. split; [reflexivity|]. split; [exact V|].
  apply edit_all_inv in E. split.
  - inversion E as [|s0 x L0 y (g & Eg & _) E' Es Ex]; subst. apply edit_one_ro in Eg. intros r Er. rewrite Er in Eg. cbn [opt] in Eg.
    destruct PO as (PR & _). rewrite Er in PR. cbn [unsigned] in PR. unfold verify in V.
    repeat match type of V with (_ && _) = true => apply andb_true_iff in V as [V ?] end.
    match goal with X : (s_ro s <=? 2) = true |- _ => apply Z.leb_le in X end. lia.
  - split; [|reflexivity]. eapply F2_impl; [|exact E]. cbv beta. intros x y (g & G & Gf). rewrite (Gf eq_refl) in G. exact G.
Qed.
Theorem C91_security e p t t' :
  e_signer e <> e_admin e -> params_ok p -> token_edit e p t = Some t' ->
  e_signer e = e_security e /\
  tk_oracle t' = tk_oracle t /\ tk_fallback t' = tk_fallback t /\ tk_insurance t' = tk_insurance t /\
  Forall2 (tightened (e_now e)) (tk_banks t) (tk_banks t').
Proof.
  intros N PO H. destruct (security_all e p t t' N PO H) as (S & s' & L' & E & _ & R & F & T). split; [exact S|].
  assert (K : p_oracle p = None /\ p_fallback p = None /\ p_insurance p = None).
  { rewrite E in F. inversion F as [|a b A B Fa]; subst. pose proof (edit_one_flag _ _ _ _ _ Fa) as G. symmetry in G. apply (secured_of _ _ G). }
  destruct K as (K1 & K2 & K3). rewrite T. rewrite K1, K2, K3. cbn [tk_oracle tk_fallback tk_insurance tk_banks opt].
  do 3 (split; [reflexivity|]). eapply F2_impl; [|exact F]. cbv beta. intros a b X. apply (edit_secured e p a b X R).
Qed.
Print Assumptions C91_security.
(** maintenance health stays, no other health rises *)
Theorem C91_health now D O P ty x :
  Forall (retuned now) D -> Forall serum_ok O -> account_health now h_old D O P ty = Some x ->
  exists y, account_health now h_new D O P ty = Some y /\ y <= x /\ (ty = HMaint -> y = x).
Proof.
  intros HD HO. unfold account_health. destruct (infos now h_old D) as [T|] eqn:E; [|discriminate]. intros H.
  destruct (infos_dimmer now D HD T E) as (T' & E' & F & F2). rewrite E'. destruct (dim_health ty T T' (F ty) O P x HO H) as (y & Hy & L).
  exists y. split; [exact Hy|]. split; [exact L|]. intros ->. destruct (dim_health HMaint T' T F2 O P y HO Hy) as (z & Hz & L'). rewrite H in Hz. apply some_inj in Hz. subst z. lia.
Qed.
Print Assumptions C91_health.

(** an ordinary token *)
Definition ex_set (maw iaw mlw ilw : fx) (ro : Z) (sh : shift) (dis : bool) (cfee : flt) : tset :=
  mkSet 11 (pc 10) (-1) 12 13 3600 (f_frac 6 100) (f_frac 3 10000) (dec 4 1000) (pc 50) (pc 2) (pc 75) (pc 5) (pc 50) (dec 20 10000) (dec 5 1000)
  maw iaw mlw ilw (pc 5) (f_frac 2 10) 5000000000 86400 (f_int 5000000000) (f_int 5000000000) ro 14 15 false f_zero f_zero f_zero (f_int 4) (f_frac 5 10)
  sh 0 0 (pc 1) dis cfee false.
Definition no_shift : shift := mkShift 0 0 0 0 0.
Definition shift_to (st en : Z) (a l : fx) : shift := mkShift st en (shift_inv st en) a l.
Definition no_params : params :=
  mkParams None None None None None None None None None None None None None None None None None None None None None None None None None None None
  None None None None None None None None None None None None false false false.
Definition params_of (iaw : option flt) (ro : option Z) (plat cfee : option flt) (abort : bool) : params :=
  mkParams None None None None None None None iaw None None None None None None None None None None None ro None None None None None None None
  None None None None None None plat None cfee None None None false false abort.
Definition ex_env (now signer : Z) : env := mkEnv now signer 100 200 None true.
Definition ex_bank : tset := ex_set (pc 80) (pc 70) (pc 110) (pc 130) 0 (shift_to 1000 2000 (pc 60) (pc 120)) false (f_frac 1 1000).
Definition ex_token : token := mkTok 11 12 true [ex_bank; ex_bank].
Definition ex_tight : params := params_of (Some f_zero) (Some 2) (Some f_zero) (Some f_zero) true.
Example C91_example : exists t',
  token_edit (ex_env 1500 200) ex_tight ex_token = Some t' /\ params_ok ex_tight /\
  Forall (fun s => s_iaw s = 0 /\ s_ro s = 2 /\ s_plat s = 0 /\ s_cfee s = f_zero /\ s_shift s = no_shift /\ pc 69 < s_maw s < pc 71) (tk_banks t') /\
  length (tk_banks t') = 2%nat /\
  (* not by someone else, and not what loosens the token *)
  token_edit (ex_env 1500 300) ex_tight ex_token = None /\
  token_edit (ex_env 1500 200) (params_of (Some f_one) None None None false) ex_token = None /\
  token_edit (ex_env 1500 200) (params_of None (Some 0) None None false) ex_token = None /\
  token_edit (ex_env 1500 200) (params_of None (Some 3) None None false) ex_token = None /\
  token_edit (ex_env 1500 100) (params_of None (Some 0) None None false) ex_token <> None.
Proof.
  eexists. split; [vm_compute; reflexivity|]. split; [vm_compute; intuition congruence|].
  split; [repeat (constructor; [do 5 (split; [vm_compute; reflexivity|]); split; zle|]); constructor|].
  split; [reflexivity|]. do 4 (split; [vm_compute; reflexivity|]). vm_compute. discriminate.
Qed.
(** the security admin cannot always stop a shift of weights: a shift may lead to a
    maintenance liability weight above the initial one, which an edit then refuses *)
Definition params_shift (st en : Z) (a l : flt) (abort : bool) : params :=
  mkParams None None None None None None None None None None None None None None None None None None None None None None None None None None None
  (Some st) (Some en) (Some a) (Some l) None None None None None None None None false false abort.
Definition plain_bank : tset := ex_set (pc 80) (pc 70) (pc 110) (pc 130) 0 no_shift false (f_frac 1 1000).
Definition overshot : list tevent := [EEdit (ex_env 900 100) (params_shift 1000 2000 (f_frac 8 10) (f_frac 14 10) false)].
Theorem C91_abort_refuted : exists l H t now,
  listing_ok l /\ Forall event_ok H /\ token_after l H = Some t /\ Forall (fun s => verify s = true) (tk_banks t) /\
  (forall e p, e_now e = now -> e_signer e <> e_admin e -> params_ok p -> p_abort p = true -> token_edit e p t = None) /\
  (* while not stopping it is accepted *)
  (forall p, In p [no_params; params_of (Some f_zero) (Some 2) None None false] -> token_edit (ex_env now 200) p t <> None).
Proof.
  exists (LRegister (ex_env 500 100) plain_bank false), overshot. eexists. exists 1900.
  split; [discriminate|]. split; [constructor; [vm_compute; intuition congruence|constructor]|]. split; [vm_compute; reflexivity|].
  split; [constructor; [vm_compute; reflexivity|constructor]|]. split.
  - intros e p En S PO A. match goal with |- ?g = None => destruct g as [t'|] eqn:E; [exfalso|reflexivity] end.
    destruct (security_all e p _ t' S PO E) as (_ & s' & L' & EL & V & R & F & _). rewrite EL in F. cbn [tk_banks] in F. inversion F as [|a b X Y Fa]; subst.
    apply (edit_secured e p _ _) in Fa; [|exact R]. destruct Fa as (TG & _ & _ & AB). specialize (AB A). rewrite En in AB.
    destruct TG as (TG & _). apply (f_equal s_ilw) in TG. cbn [with_tight s_ilw] in TG. apply (f_equal snd) in AB. cbn [snd] in AB.
    clear - V TG AB. unfold verify in V. repeat match type of V with (_ && _) = true => apply andb_true_iff in V as [V ?] end.
    match goal with X : (s_mlw s' <=? s_ilw s') = true |- _ => rewrite <- AB, TG in X; vm_compute in X; discriminate X end.
  - intros p [<-|[<-|[]]]; vm_compute; discriminate.
Qed.
Print Assumptions C91_abort_refuted.
Definition held_bank : bank :=
  mkBank (1000000 * fone) (1000000 * fone) (2 * fone) fone 0 0 (fone / 2000) 0 100 0 1000 fone 0 0 0 (fone * 9 / 10) 0 (mkIpar (fone / 100) (fone / 2) (fone / 20) (fone * 8 / 10) (fone / 5) fone 0 (fone / 200)) 0.
Definition ex_held (ix : Z) (native : fx) (s s' : tset) : held_token := mkHeld ix held_bank (mkPr (2 * fone) (3 * fone)) native s s'.
Definition tight_bank : tset := match edit_one (ex_env 1500 200) ex_tight ex_bank with Some (s, _) => s | None => ex_bank end.
Definition ex_held_tokens : list held_token :=
  [ex_held 0 (of_int 1000) ex_bank tight_bank; ex_held 1 (of_int (-300)) plain_bank plain_bank].
Ltac rr := repeat match goal with |- _ /\ _ => split end;
  first [zle | reflexivity | match goal with |- above _ ?f => let g := eval vm_compute in f in change (above 0 g) end; unfold above; zle
        | match goal with |- at_least ?k ?f => let g := eval vm_compute in f in change (at_least k g) end; unfold at_least; zle
        | match goal with |- at_most ?k ?f => let g := eval vm_compute in f in change (at_most k g) end; unfold at_most; zle | idtac].
Lemma ex_ranges : ranges ex_bank /\ ranges plain_bank.
Proof. split; (apply verify_inv; [vm_compute; reflexivity|zle|split; [zle|vm_compute; reflexivity]]). Qed.
Example C91_health_example :
  Forall (retuned 1500) ex_held_tokens /\
  exists x y z, account_health 1500 h_old ex_held_tokens [] [] HInit = Some x /\ account_health 1500 h_new ex_held_tokens [] [] HInit = Some y /\
    account_health 1500 h_new ex_held_tokens [] [] HMaint = Some z /\ z = opt (account_health 1500 h_old ex_held_tokens [] [] HMaint) 0 /\ y < 0 < x /\ 0 < z.
Proof.
  split.
  - assert (S1 : edit_one (ex_env 1500 200) ex_tight ex_bank = Some (tight_bank, false)) by (vm_compute; reflexivity).
    assert (S2 : edit_one (ex_env 1500 200) no_params plain_bank = Some (plain_bank, false)) by (vm_compute; reflexivity).
    constructor; [|constructor; [|constructor]]; unfold retuned; cbn [ex_held h_old h_new h_prices pr_oracle pr_stable].
    + split; [apply (edit_secured _ _ _ _ S1); intros r Hr; cbn [ex_tight params_of p_ro] in Hr; apply some_inj in Hr; lia|].
      split; [apply ex_ranges|split; zle].
    + split; [apply (edit_secured _ _ _ _ S2); intros r Hr; cbn [no_params p_ro] in Hr; discriminate|].
      split; [apply ex_ranges|split; zle].
  - eexists. eexists. eexists. split; [vm_compute; reflexivity|]. split; [vm_compute; reflexivity|]. split; [vm_compute; reflexivity|].
    split; [vm_compute; reflexivity|]. split; [split; zle|zle].
Qed.

(** ** C92: what the security admin can do to a perp or spot market *)
Theorem C92_perp e p m m' : e_signer e <> e_admin e -> perp_edit e p m = Some m' ->
  e_signer e = e_security e /\
  (m_init_overall m' = m_init_overall m \/ m_init_overall m' = 0) /\ (m_reduce_only m' = m_reduce_only m \/ m_reduce_only m' = true) /\
  m_force_close m' = m_force_close m /\ m_rest m' = m_rest m.
Proof.
  intros N H. unfold perp_edit in H. destruct (num_opt _ _) as [io|] eqn:E; [|discriminate]. cbv zeta in H.
  match type of H with (if ?c then _ else _) = _ => destruct c; [discriminate|] end.
  match type of H with (if may_edit _ ?f then _ else _) = _ => destruct (may_edit e f) eqn:M; [|discriminate] end.
  apply some_inj in H. subst m'. apply may_edit_other in M as [M S]; [|exact N]. split; [exact S|].
  apply orb_false_iff in M as [M M4]. apply orb_false_iff in M as [M M3]. apply orb_false_iff in M as [M1 M2].
  apply given_false in M3. apply given_false in M4. rewrite M3, M4. cbn [m_init_overall m_reduce_only m_force_close m_rest opt].
  split; [|split; [|split; reflexivity]].
  - destruct (pp_init_overall p) as [f|]; cbn [num_opt] in E; [|apply some_inj in E; auto]. rewrite (nonzero_false _ M1), from_num_zero in E. apply some_inj in E. auto.
  - destruct (pp_reduce_only p) as [[|]|]; cbn [opt]; auto; discriminate M2.
Qed.
Print Assumptions C92_perp.
Theorem C92_spot e p m m' : e_signer e <> e_admin e -> serum_edit e p m = Some m' ->
  e_signer e = e_security e /\
  (x_reduce_only m' = x_reduce_only m \/ x_reduce_only m' = true) /\
  x_force_close m' = x_force_close m /\ x_name m' = x_name m /\ x_band m' = x_band m.
Proof.
  intros N H. unfold serum_edit in H. cbv zeta in H.
  match type of H with (if ?c then _ else _) = _ => destruct c; [discriminate|] end.
  match type of H with (if may_edit _ ?f then _ else _) = _ => destruct (may_edit e f) eqn:M; [|discriminate] end.
  apply some_inj in H. subst m'. apply may_edit_other in M as [M S]; [|exact N]. split; [exact S|].
  apply orb_false_iff in M as [M M4]. apply orb_false_iff in M as [M M3]. apply orb_false_iff in M as [M1 M2].
  apply given_false in M2. apply given_false in M3. apply given_false in M4. rewrite M2, M3, M4. cbn [x_reduce_only x_force_close x_name x_band opt].
  split; [|split; [|split]; reflexivity]. destruct (sp_reduce_only p) as [[|]|]; cbn [opt]; auto; discriminate M1.
Qed.
Print Assumptions C92_spot.
Lemma muted_succeeds T ty : forall P P', Forall2 muted P P' -> forall acc acc', perp_balances T ty false P acc <> None -> perp_balances T ty false P' acc' <> None.
Proof.
  induction 1 as [|p p' P P' M _ IH]; intros acc acc' H; cbn [perp_balances] in *; [discriminate|].
  assert (S : pi_settle p' = pi_settle p) by (destruct M as [->| ->]; reflexivity). rewrite S. destruct (token_pos T (pi_settle p)); [|congruence]. eapply IH, H.
Qed.
(** when positive pnl of some perp markets no longer counts, maintenance health stays and
    no other health rises, if no tokens are reserved by spot orders *)
Theorem C92_health T O P P' ty x :
  Forall token_ok T -> no_reserved (mkHC T O P) -> Forall (fun p => 0 <= pi_init_overall p) P ->
  Forall2 (fun p p' => p' = p \/ p' = with_overall 0 p) P P' ->
  health (mkHC T O P) ty = Some x ->
  exists y, health (mkHC T O P') ty = Some y /\ y <= x /\ (ty = HMaint -> y = x).
Proof.
  intros TO N F M Hx. destruct (health_no_reserved _ _ _ N Hx) as (B & HB & Ex). cbn [hc_tokens] in Ex.
  assert (SB : exists B', balances (mkHC T O P') ty false = Some B').
  { unfold balances in *. cbn [hc_tokens hc_perps] in *. pose proof (muted_succeeds T ty P P' M (zeros (length T)) (zeros (length T))) as K.
    destruct (perp_balances T ty false P _); [|discriminate HB]. destruct (perp_balances T ty false P' _); [eauto|]. exfalso. apply K; [discriminate|reflexivity]. }
  destruct SB as (B' & HB'). assert (Sx : exists y, health (mkHC T O P') ty = Some y).
  { unfold health in *. rewrite HB in Hx. rewrite HB'. unfold health_sum, serum_contributions in *. cbn [hc_tokens hc_serum] in *. destruct (reservations _ _ _ _) as [[A R]|]; [eauto|discriminate]. }
  destruct Sx as (y & Hy). exists y. split; [exact Hy|]. destruct (health_no_reserved _ _ _ (N : no_reserved (mkHC T O P')) Hy) as (B2 & HB2 & Ey). rewrite HB' in HB2. apply some_inj in HB2. subst B2. cbn [hc_tokens] in Ey.
  apply balances_spec in HB as (L & NB & _). apply balances_spec in HB' as (L' & NB' & _). cbn [hc_tokens hc_perps] in *.
  assert (LE : Forall2 Z.le B' B).
  { apply nth_le_Forall2; [lia|]. intros j. rewrite NB, NB'. pose proof (muted_part T ty P P' j M F) as [X _]. lia. }
  assert (ST : stricter ty ty) by (destruct ty; exact I).
  subst x y. split; [apply contributions_le; assumption|]. intros ->.
  assert (EQ : B' = B). { apply (nth_ext _ _ 0 0); [lia|]. intros j _. rewrite NB, NB'. pose proof (muted_part T HMaint P P' j M F) as [_ X]. rewrite (X eq_refl). reflexivity. }
  rewrite EQ. reflexivity.
Qed.
Print Assumptions C92_health.
Definition winner : pinfo := mkPI 0 0 (pc 90) (pc 80) (pc 120) (pc 140) fone fone 1 100 0 0 (of_int (-70)) (mkPr fone fone) false false.
Definition owing : list tinfo := [tok_w 0 20 120 (-20); tok_w 1 100 120 0; tok_w 2 100 120 0].
Definition two_bids : list sinfo := [mkSI 1 0 0 (of_int 10) 0 0 0 false; mkSI 2 0 0 (of_int 10) 0 0 1 false].
(** with reserved tokens initial health may rise: what the orders reserve then repays the
    borrow that the pnl repaid before, for both markets *)
Theorem C92_orders_refuted : exists T O p x y,
  toks_ok T /\ Forall serum_ok O /\ perp_ok p /\ NoDup (map ti_index T) /\
  health (mkHC T O [p]) HInit = Some x /\ health (mkHC T O [with_overall 0 p]) HInit = Some y /\ x + of_int 3 < y.
Proof.
  exists owing, two_bids, winner. eexists. eexists.
  split; [unfold toks_ok; repeat (apply Forall_cons || apply Forall_nil); (split; [|split; [discriminate|split; reflexivity]]); unfold token_ok, prices_ok; zr|].
  split; [repeat (constructor; [unfold serum_ok; zr|]); constructor|]. split; [unfold perp_ok, prices_ok; zr|].
  split; [cbn [owing map tok_w ti_index]; repeat constructor; cbn; intuition discriminate|].
  split; [vm_compute; reflexivity|]. split; [vm_compute; reflexivity|]. zle.
Qed.
Print Assumptions C92_orders_refuted.
(** force-closing is only allowed while a token or market is reduce-only, but reduce-only
    can be taken back while force-closing goes on *)
Theorem C92_force_refuted :
  (exists e p m m', m_force_close m = true /\ m_reduce_only m = true /\ perp_edit e p m = Some m' /\ m_force_close m' = true /\ m_reduce_only m' = false) /\
  (exists e p m m', x_force_close m = true /\ x_reduce_only m = true /\ serum_edit e p m = Some m' /\ x_force_close m' = true /\ x_reduce_only m' = false).
Proof.
  split.
  - exists (ex_env 0 100), (mkPP None (Some false) None None), (mkPset 0 true true 5). eexists. do 2 (split; [reflexivity|]). split; [vm_compute; reflexivity|]. split; reflexivity.
  - exists (ex_env 0 100), (mkSP (Some false) None None None), (mkSset true true 5 f_one). eexists. do 2 (split; [reflexivity|]). split; [vm_compute; reflexivity|]. split; reflexivity.
Qed.
Print Assumptions C92_force_refuted.
(** an edit that sets force-closing finds the market reduce-only *)
Theorem C92_force e :
  (forall p m m', perp_edit e p m = Some m' -> pp_force_close p = Some true -> m_force_close m' = true /\ m_reduce_only m' = true /\ e_signer e = e_admin e) /\
  (forall p m m', serum_edit e p m = Some m' -> sp_force_close p = Some true -> x_force_close m' = true /\ x_reduce_only m' = true /\ e_signer e = e_admin e) /\
  (forall p s s' f, edit_one e p s = Some (s', f) -> p_fc p = Some true -> s_fc s' = true /\ 0 < s_ro s' /\ f = true).
Proof.
  split; [|split].
  - intros p m m' H F. unfold perp_edit in H. destruct (num_opt _ _) as [io|]; [|discriminate]. cbv zeta in H. rewrite F in H.
    destruct (opt (pp_reduce_only p) (m_reduce_only m)) eqn:R; [|discriminate H]. cbn [negb given] in H.
    rewrite !orb_true_r in H. cbn [orb] in H. unfold may_edit in H. destruct (Z.eqb_spec (e_admin e) (e_signer e)); [|discriminate H].
    cbn [orb] in H. apply some_inj in H. subst m'. cbn [m_force_close m_reduce_only opt]. auto.
  - intros p m m' H F. unfold serum_edit in H. cbv zeta in H. rewrite F in H.
    destruct (opt (sp_reduce_only p) (x_reduce_only m)) eqn:R; [|discriminate H]. cbn [negb given] in H.
    rewrite !orb_true_r in H. cbn [orb] in H. unfold may_edit in H. destruct (Z.eqb_spec (e_admin e) (e_signer e)); [|discriminate H].
    cbn [orb] in H. apply some_inj in H. subst m'. cbn [x_force_close x_reduce_only opt]. auto.
  - intros p s s' f H F. pose proof (edit_one_ro _ _ _ _ _ H) as RO. pose proof (edit_one_flag _ _ _ _ _ H) as FL.
    assert (f = true). { subst f. unfold needs_admin. rewrite F. cbn [given]. rewrite !orb_true_r. reflexivity. }
    split; [|split; [|assumption]].
    + apply edit_one_fc in H. rewrite H, F. reflexivity.
    + apply edit_one_fc_ro in H; [|exact F]. lia.
Qed.
Print Assumptions C92_force.
Example C92_example :
  let m := mkPset (pc 90) false false 7 in
  let x := mkSset false false 8 f_one in
  perp_edit (ex_env 0 200) (mkPP (Some f_zero) (Some true) None None) m = Some (mkPset 0 true false 7) /\
  perp_edit (ex_env 0 200) (mkPP (Some f_one) None None None) m = None /\
  perp_edit (ex_env 0 100) (mkPP (Some f_one) None None (Some 9)) m = Some (mkPset fone false false 9) /\
  perp_edit (ex_env 0 100) (mkPP None None (Some true) None) m = None /\
  serum_edit (ex_env 0 200) (mkSP (Some true) None None None) x = Some (mkSset true false 8 f_one) /\
  serum_edit (ex_env 0 200) (mkSP (Some false) None None None) x = None /\
  serum_edit (ex_env 0 100) (mkSP (Some true) (Some true) (Some 3) None) x = Some (mkSset true true 3 f_one).
Proof. cbv zeta. do 6 (split; [vm_compute; reflexivity|]). vm_compute. reflexivity. Qed.
Example C92_health_example :
  Forall token_ok owing /\ no_reserved (mkHC owing [] [winner]) /\ 0 <= pi_init_overall winner /\
  exists x y z, health (mkHC owing [] [winner]) HInit = Some x /\ health (mkHC owing [] [with_overall 0 winner]) HInit = Some y /\ y < x /\
    health (mkHC owing [] [winner]) HMaint = Some z /\ health (mkHC owing [] [with_overall 0 winner]) HMaint = Some z.
Proof.
  split; [repeat (apply Forall_cons || apply Forall_nil); unfold token_ok, prices_ok; zr|]. split; [constructor|]. split; [zle|].
  eexists. eexists. eexists. do 2 (split; [vm_compute; reflexivity|]). split; [zle|]. split; vm_compute; reflexivity.
Qed.

(** ** C93: the settings of all banks of a token *)
(** all banks of a token have the same settings, but for the fallback oracle *)
Theorem C93_uniform l H t a b :
  listing_ok l -> Forall event_ok H -> token_after l H = Some t -> In a (tk_banks t) -> In b (tk_banks t) ->
  with_fallback 0 a = with_fallback 0 b.
Proof. intros LO EO R Ia Ib. destruct (after_fine l H t LO EO R) as (_ & U & _). apply U; assumption. Qed.
Print Assumptions C93_uniform.
(** a bank added to a token takes its main oracle as fallback *)
Theorem C93_fallback_refuted : exists l H t a b,
  listing_ok l /\ Forall event_ok H /\ token_after l H = Some t /\ In a (tk_banks t) /\ In b (tk_banks t) /\
  s_fallback a <> s_fallback b /\ s_fallback b = s_oracle b.
Proof.
  exists (LRegister (ex_env 500 100) plain_bank false), [EAddBank (ex_env 600 100) 0]. eexists. eexists. eexists.
  split; [discriminate|]. split; [repeat constructor|]. split; [vm_compute; reflexivity|]. split; [left; reflexivity|]. split; [right; left; reflexivity|].
  split; [discriminate|reflexivity].
Qed.
Print Assumptions C93_fallback_refuted.
(** settings stay in their ranges whatever happens *)
Theorem C93_ranges l H t : listing_ok l -> Forall event_ok H -> token_after l H = Some t -> tk_banks t <> [] /\ Forall ranges (tk_banks t).
Proof. intros LO EO R. destruct (after_fine l H t LO EO R) as (N & _ & Rg). split; assumption. Qed.
Print Assumptions C93_ranges.
(** after an edit or a listing, the weights of all banks are ordered, and what disables
    liquidation or forces withdrawals does so with no collateral *)
Theorem C93_ordered l H e p t :
  listing_ok l -> Forall event_ok H -> params_ok p ->
  (token_after l H = Some t -> H = [] -> Forall ordered (tk_banks t)) /\
  (token_after l (H ++ [EEdit e p]) = Some t -> Forall ordered (tk_banks t)).
Proof.
  intros LO EO PO. split.
  - intros R ->. unfold token_after in R. destruct (list_token l) as [t0|] eqn:E; [|discriminate]. cbn [trun] in R. apply some_inj in R. subst t0.
    apply (list_fine l t LO E).
  - intros R. unfold token_after in R. destruct (list_token l) as [t0|] eqn:E; [|discriminate]. pose proof (list_fine l t0 LO E) as [F0 _]. clear E LO.
    revert t0 F0 R. induction EO as [|ev H EV EO IH]; intros t0 F0 R; cbn [app trun] in R.
    + cbn [tstep] in R. destruct (token_edit e p t0) as [t1|] eqn:E; [|discriminate]. apply some_inj in R. subst t1. apply (edit_fine e p t0 t PO F0 E).
    + destruct (tstep t0 ev) as [t1|] eqn:E; [|discriminate]. apply (IH t1); [eapply step_fine; eassumption|exact R].
Qed.
Print Assumptions C93_ordered.
(** not at all times: when a shift ends, weights may no longer be ordered, and a token with
    liquidation disabled may count as collateral *)
Definition dis_bank : tset := ex_set 0 0 (pc 110) (pc 130) 1 no_shift true f_zero.
Theorem C93_ordered_refuted : exists l H t,
  listing_ok l /\ Forall event_ok H /\ token_after l H = Some t /\ ~ Forall ordered (tk_banks t) /\
  Forall (fun s => s_dis s = true /\ 0 < s_maw s /\ s_ilw s < s_mlw s) (tk_banks t).
Proof.
  exists (LRegister (ex_env 500 100) dis_bank false), (overshot ++ [EUpdate 2000 13 false f_one]). eexists.
  split; [discriminate|]. split; [constructor; [vm_compute; intuition congruence|repeat constructor]|]. split; [vm_compute; reflexivity|].
  assert (K : forall s, s_dis s = true -> 0 < s_maw s -> ~ Forall ordered [s]).
  { intros s D P O. inversion O as [|? ? X _]; subst. destruct X as (_ & _ & X & _). destruct (X D) as [_ Y]. lia. }
  split; [apply K; [reflexivity|zle]|]. constructor; [|constructor]. split; [reflexivity|]. split; zle.
Qed.
Print Assumptions C93_ordered_refuted.
(** they stay ordered when every shift leads to ordered weights, and then at any time during
    a shift *)
Theorem C93_ordered_kept l H t t0 :
  listing_ok l -> Forall event_ok H -> list_token l = Some t0 -> token_after l H = Some t ->
  along (fun t => Forall targets_ordered (tk_banks t)) t0 H ->
  Forall (fun s => forall now, ordered_by (fst (maint_at s now)) (snd (maint_at s now)) s) (tk_banks t).
Proof.
  intros LO EO E R A. unfold token_after in R. rewrite E in R. pose proof (list_fine l t0 LO E) as [F0 O0].
  destruct (run_ordered H t0 t EO F0 O0 A R) as [O T]. pose proof (run_fine H t0 t EO F0 R) as (_ & _ & Rg).
  apply Forall_forall. intros s Is now. rewrite Forall_forall in O, T, Rg. specialize (O s Is). specialize (T s Is). specialize (Rg s Is).
  destruct Rg as (_ & _ & _ & _ & S1 & S2 & _). unfold maint_at. destruct (Z.eqb_spec (sh_inv (s_shift s)) 0) as [I|I].
  - unfold maint_weights. rewrite I. exact O.
  - specialize (T I). destruct (maint_weights (s_maw s) (s_mlw s) (s_shift s) now) as [a m] eqn:M. pose proof (C63_between _ _ _ _ _ _ S1 S2 M) as [B1 B2]. cbn [fst snd].
    destruct O as (O1 & O2 & O3 & O4). destruct T as (T1 & T2 & T3 & T4). unfold ordered_by. split; [lia|]. split; [lia|]. split.
    + intros D. destruct (O3 D) as [X Y]. destruct (T3 D) as [_ Z]. split; [exact X|]. rewrite Y, Z in B1. lia.
    + intros W. destruct (O4 W) as (X & D & Y). destruct (T4 W) as (_ & _ & Z). split; [exact X|]. split; [exact D|]. rewrite Y, Z in B1. lia.
Qed.
Print Assumptions C93_ordered_kept.
(** what is not a number passes for a fee, so that fees need not be amounts *)
Theorem C93_nan_refuted : exists l t, listing_ok l /\ token_after l [] = Some t /\
  Forall (fun s => s_cfee s = FNan /\ s_tcst s = FNan /\ s_curve s = FNan /\ s_bscale s = FNan) (tk_banks t).
Proof.
  exists (LRegister (ex_env 500 100) (mkSet 11 (pc 10) (-1) 12 13 3600 FNan FNan (dec 4 1000) (pc 50) (pc 2) (pc 75) (pc 5) (pc 50) (dec 20 10000) (dec 5 1000)
    (pc 80) (pc 70) (pc 110) (pc 130) (pc 5) FNan 5000000000 86400 FNan FNan 0 14 15 false FNan FNan FNan FNan FNan
    no_shift 0 0 (pc 1) false FNan false) false). eexists. split; [discriminate|]. split; [vm_compute; reflexivity|].
  constructor; [do 3 (split; [reflexivity|]); reflexivity|constructor].
Qed.
Print Assumptions C93_nan_refuted.
Definition ex_events : list tevent :=
  [EAddBank (ex_env 600 100) 0; EEdit (ex_env 900 100) (params_shift 1000 2000 (f_frac 75 100) (f_frac 12 10) false);
   EUpdate 1500 20 true (f_frac 5 2); EEdit (ex_env 1600 200) (params_of None (Some 1) None None false); EUpdate 2500 21 false f_one].
Example C93_example : exists t0 t,
  list_token (LRegister (ex_env 500 100) plain_bank true) = Some t0 /\ token_after (LRegister (ex_env 500 100) plain_bank true) ex_events = Some t /\
  Forall event_ok ex_events /\ along (fun t => Forall targets_ordered (tk_banks t)) t0 ex_events /\
  length (tk_banks t) = 2%nat /\
  Forall (fun s => pc 74 < s_maw s < pc 76 /\ pc 119 < s_mlw s < pc 121 /\ s_curve s = f_frac 5 2 /\ s_sp s = 21 /\ s_ro s = 1) (tk_banks t).
Proof.
  eexists. eexists. split; [vm_compute; reflexivity|]. split; [vm_compute; reflexivity|]. split.
  - repeat (constructor; [vm_compute; intuition congruence|]). constructor.
  - split; [|split; [reflexivity|]].
    + assert (K : forall s, (if sh_inv (s_shift s) =? 0 then true else (s_iaw s <=? sh_asset (s_shift s)) && (sh_liab (s_shift s) <=? s_ilw s) && negb (s_dis s) && negb (s_fw s)) = true -> targets_ordered s).
      { intros s Q I. destruct (Z.eqb_spec (sh_inv (s_shift s)) 0); [contradiction|]. repeat (apply andb_true_iff in Q as [Q ?]). apply negb_true_iff in H, H0. apply Z.leb_le in Q, H1.
        unfold ordered_by. split; [exact Q|]. split; [exact H1|]. split; intros; congruence. }
      assert (K2 : forall H t, along (fun t => forallb (fun s => if sh_inv (s_shift s) =? 0 then true else (s_iaw s <=? sh_asset (s_shift s)) && (sh_liab (s_shift s) <=? s_ilw s) && negb (s_dis s) && negb (s_fw s)) (tk_banks t) = true) t H ->
        along (fun t => Forall targets_ordered (tk_banks t)) t H).
      { induction H as [|ev H IH]; intros t [A B]; (split; [apply Forall_forall; intros s Is; rewrite forallb_forall in A; apply K, A, Is|]); [exact I|].
        destruct (tstep t ev); [apply IH, B|exact I]. }
      apply K2. vm_compute. intuition reflexivity.
    + repeat (constructor; [split; [split; zle|]; split; [split; zle|]; split; [vm_compute; reflexivity|split; reflexivity]|]). constructor.
Qed.

(** ** C94: fast listings *)
Lemma week_div a : a mod (7 * 24 * 60 * 60) = 0 -> a = a / (7 * 24 * 60 * 60) * (7 * 24 * 60 * 60).
Proof. intros H. pose proof (Z.div_mod a (7 * 24 * 60 * 60) ltac:(discriminate)). lia. Qed.
Lemma fast_list_inv now g g' : 0 <= fl_start g <= now -> fl_start g mod (7 * 24 * 60 * 60) = 0 -> 0 <= fl_count g -> fast_list now g = Some g' ->
  fl_allowed g' = fl_allowed g /\ fl_start g' = now / (7 * 24 * 60 * 60) * (7 * 24 * 60 * 60) /\
  fl_count g' = (if fl_start g =? fl_start g' then fl_count g else 0) + 1 /\ fl_count g' <= fl_allowed g /\ fl_start g <= fl_start g'.
Proof.
  intros S M C H. unfold fast_list, WEEK_S in H. pose proof (week_div _ M) as W. set (k := fl_start g / (7 * 24 * 60 * 60)) in *. clearbody k.
  pose proof (Z.div_mod now (7 * 24 * 60 * 60) ltac:(discriminate)) as DM. pose proof (Z.mod_pos_bound now (7 * 24 * 60 * 60) ltac:(reflexivity)) as MB.
  set (n := now / (7 * 24 * 60 * 60)) in *. clearbody n. set (r := now mod _) in *. clearbody r.
  destruct (Z.leb_spec (fl_start g + 7 * 24 * 60 * 60) now) as [L|L]; cbv zeta in H; cbn [fl_start fl_count fl_allowed] in H.
  - destruct (_ <? 2 ^ 16); [|discriminate]. destruct (Z.leb_spec (0 + 1) (fl_allowed g)); [|discriminate]. apply some_inj in H. subst g'. cbn [fl_start fl_count fl_allowed].
    destruct (Z.eqb_spec (fl_start g) (n * (7 * 24 * 60 * 60))); repeat split; lia.
  - destruct (_ <? 2 ^ 16); [|discriminate]. destruct (Z.leb_spec (fl_count g + 1) (fl_allowed g)); [|discriminate]. apply some_inj in H. subst g'. cbn [fl_start fl_count fl_allowed].
    rewrite Z.eqb_refl. repeat split; lia.
Qed.
Lemma limit_from A k : 0 <= A -> forall H g from, in_time from H -> 0 <= fl_start g <= from -> fl_start g mod (7 * 24 * 60 * 60) = 0 -> 0 <= fl_count g ->
  fl_allowed g <= A -> Forall (allows_at_most A) H ->
  Z.of_nat (length (filter (in_week k) (listed g H))) <=
    (if fl_start g =? k * (7 * 24 * 60 * 60) then Z.max 0 (A - fl_count g) else if fl_start g <? k * (7 * 24 * 60 * 60) then A else 0).
Proof.
  intros A0. induction H as [|ev H IH]; intros g from T S M C AL F.
  - cbn [listed filter length]. destruct (_ =? _); [lia|]. destruct (_ <? _); lia.
  - inversion F as [|? ? F1 F2]; subst. destruct ev as [now|n]; cbn [listed in_time allows_at_most] in *.
    + destruct T as [T1 T2]. destruct (fast_list now g) as [g'|] eqn:E; [|apply (IH g now); [assumption|lia|assumption..]].
      apply fast_list_inv in E; [|lia|exact M|exact C]. destruct E as (E1 & E2 & E3 & E4 & E5).
      assert (MM : fl_start g' mod (7 * 24 * 60 * 60) = 0) by (rewrite E2; apply Z.mod_mul; discriminate).
      assert (C' : 0 <= fl_count g') by (destruct (_ =? _); lia).
      pose proof (Z.div_mod now (7 * 24 * 60 * 60) ltac:(discriminate)) as DM. pose proof (Z.mod_pos_bound now (7 * 24 * 60 * 60) ltac:(reflexivity)) as MB.
      specialize (IH g' now T2 ltac:(lia) MM C' ltac:(lia) F2). cbn [filter]. unfold in_week at 1.
      rewrite E2 in *. clear E2 MM M. set (nw := now / (7 * 24 * 60 * 60)) in *. clearbody nw. set (r := now mod _) in *. clearbody r.
      destruct (Z.eqb_spec nw k) as [->|NK]; cbn [length]; set (X := length (filter (in_week k) (listed g' H))) in *; clearbody X.
      * rewrite Z.eqb_refl in IH.
        revert E3; destruct (Z.eqb_spec (fl_start g) (k * (7 * 24 * 60 * 60))); intros E3; [lia|]. destruct (Z.ltb_spec (fl_start g) (k * (7 * 24 * 60 * 60))); lia.
      * destruct (Z.eqb_spec (nw * (7 * 24 * 60 * 60)) (k * (7 * 24 * 60 * 60))); [lia|].
        destruct (Z.eqb_spec (fl_start g) (k * (7 * 24 * 60 * 60))); destruct (Z.ltb_spec (nw * (7 * 24 * 60 * 60)) (k * (7 * 24 * 60 * 60))); [lia|lia| |].
        -- destruct (Z.ltb_spec (fl_start g) (k * (7 * 24 * 60 * 60))); lia.
        -- destruct (Z.ltb_spec (fl_start g) (k * (7 * 24 * 60 * 60))); lia.
    + apply (IH (fstep g (FAllow n)) from); cbn [fstep fl_start fl_count fl_allowed]; assumption.
Qed.
(** no more listings in a week than were ever allowed *)
Theorem C94_limit A a H k :
  a <= A -> 0 <= A -> in_time 0 H -> Forall (allows_at_most A) H ->
  Z.of_nat (length (filter (in_week k) (listed (mkFL 0 0 a) H))) <= A.
Proof.
  intros LA A0 T F. pose proof (limit_from A k A0 H (mkFL 0 0 a) 0 T) as L. cbn [fl_start fl_count fl_allowed] in L.
  specialize (L ltac:(lia) eq_refl ltac:(lia) LA F). destruct (_ =? _); [lia|]. destruct (_ <? _); lia.
Qed.
Print Assumptions C94_limit.
(** the allowance can be used: in a new week the first listing succeeds if any is allowed,
    in the same week the next one while fewer than the allowed were made *)
Theorem C94_usable now g : 0 <= fl_count g -> fl_allowed g < 2 ^ 16 ->
  (fl_start g + 7 * 24 * 60 * 60 <= now -> 0 < fl_allowed g -> exists g', fast_list now g = Some g' /\ fl_count g' = 1) /\
  (now < fl_start g + 7 * 24 * 60 * 60 -> fl_count g < fl_allowed g -> exists g', fast_list now g = Some g' /\ fl_count g' = fl_count g + 1) /\
  (now < fl_start g + 7 * 24 * 60 * 60 -> fl_allowed g <= fl_count g -> fast_list now g = None).
Proof.
  intros C AL. unfold fast_list, WEEK_S. split; [|split]; intros H1 H2.
  - destruct (Z.leb_spec (fl_start g + 7 * 24 * 60 * 60) now); [|lia]. cbv zeta. cbn [fl_start fl_count fl_allowed]. rewrite Z.add_0_l.
    replace (1 <? 2 ^ 16) with true by reflexivity. destruct (Z.leb_spec 1 (fl_allowed g)); [|lia]. eexists. split; reflexivity.
  - destruct (Z.leb_spec (fl_start g + 7 * 24 * 60 * 60) now); [lia|]. cbv zeta. destruct (Z.ltb_spec (fl_count g + 1) (2 ^ 16)); [|lia].
    destruct (Z.leb_spec (fl_count g + 1) (fl_allowed g)); [|lia]. eexists. split; reflexivity.
  - destruct (Z.leb_spec (fl_start g + 7 * 24 * 60 * 60) now); [lia|]. cbv zeta. destruct (Z.leb_spec (fl_count g + 1) (fl_allowed g)); [lia|]. destruct (_ <? _); reflexivity.
Qed.
Print Assumptions C94_usable.
(** who may list so, and that it then succeeds *)
Theorem C94_who e fast_admin oracle fallback sp name tier :
  register_trustless e fast_admin oracle fallback sp name tier <> None <->
  (e_signer e = e_admin e \/ e_signer e = fast_admin) /\ e_fallback_ok e = true.
Proof.
  unfold register_trustless. assert (V : verify (trustless oracle fallback sp name tier) = true) by (vm_compute; reflexivity). cbv zeta. rewrite V. clear V.
  destruct (Z.eqb_spec (e_admin e) (e_signer e)), (Z.eqb_spec fast_admin (e_signer e)), (e_fallback_ok e); cbn [orb andb]; split;
    try (intros H; exfalso; apply H; reflexivity); try (intros _; split; auto); try (intros ([X|X] & Y); congruence); try discriminate.
Qed.
Print Assumptions C94_who.
(** what a token listed so is worth: nothing as collateral, and it cannot be borrowed, until
    the admin edits it *)
Definition by_others (ev : tevent) : Prop := match ev with EEdit e _ => e_signer e <> e_admin e | _ => True end.
Definition harmless (s : tset) : Prop := (forall t, fst (maint_at s t) = 0) /\ s_iaw s = 0 /\ 1 <= strictness (s_ro s) /\ s_dis s = true.
Lemma harmless_tightened now s s' : tightened now s s' -> harmless s -> harmless s'.
Proof.
  intros (E & I & _ & _ & R & M) (H1 & H2 & H3 & H4). split; [|split; [destruct I; congruence|split]].
  - intros t. destruct M as [M|M]; rewrite M; apply H1.
  - destruct R as [R|R]; [rewrite R; exact H3|lia].
  - rewrite E. exact H4.
Qed.
Lemma harmless_update sp done hourly x first s now : ranges s -> (done = true -> 0 < sh_inv (s_shift s) /\ sh_end (s_shift s) <= now) -> harmless s -> harmless (updated sp done hourly x first s).
Proof.
  intros Rg D H. assert (H1 : harmless (set_sp sp s)) by exact H. unfold updated. cbv zeta.
  assert (H2 : harmless (if done then shift_done (set_sp sp s) else set_sp sp s)).
  { destruct done; [|exact H1]. destruct (D eq_refl) as [D1 D2]. destruct H as (M & I & R & DS). split; [|split; [exact I|split; [exact R|exact DS]]].
    intros t. unfold maint_at. cbn [shift_done set_sp s_shift s_maw s_mlw]. unfold maint_weights at 1. cbn [sh_inv Z.eqb orb fst].
    specialize (M now). unfold maint_at, maint_weights in M. destruct (Z.eqb_spec (sh_inv (s_shift s)) 0); [lia|]. cbn [orb] in M.
    destruct Rg as (_ & _ & _ & _ & S1 & S2 & _). unfold shift_inv in S2. destruct (Z.leb_spec (sh_end (s_shift s)) (sh_start (s_shift s))); [lia|].
    destruct (Z.leb_spec now (sh_start (s_shift s))); [lia|]. destruct (Z.leb_spec (sh_end (s_shift s)) now); [exact M|lia]. }
  set (s1 := if done then _ else _) in *. clearbody s1. destruct hourly; exact H2.
Qed.
Theorem C94_harmless e fast_admin oracle fallback sp name tier H t :
  token_after (LTrustless e fast_admin oracle fallback sp name tier) H = Some t -> Forall event_ok H -> Forall by_others H ->
  Forall (fun s => (forall now, fst (maint_at s now) = 0) /\ s_iaw s = 0 /\ (s_ro s = 1 \/ s_ro s = 2) /\ s_dis s = true) (tk_banks t).
Proof.
  intros R EO BO. assert (K : Forall harmless (tk_banks t)).
  { unfold token_after in R. destruct (list_token _) as [t0|] eqn:E; [|discriminate].
    assert (F0 : fine t0) by (eapply (list_fine (LTrustless e fast_admin oracle fallback sp name tier)); [exact I|exact E]).
    assert (H0 : Forall harmless (tk_banks t0)).
    { cbn [list_token] in E. unfold register_trustless in E. cbv zeta in E. match type of E with (if ?c then _ else _) = _ => destruct c; [|discriminate E] end.
      apply some_inj in E. subst t0. cbn [tk_banks]. constructor; [|constructor]. split; [intros now; reflexivity|]. split; [reflexivity|]. split; [vm_compute; discriminate|reflexivity]. }
    clear E. revert t0 F0 H0 R BO. induction EO as [|ev H EV EO IH]; intros t0 F0 H0 R BO; cbn [trun] in R; [apply some_inj in R; subst t0; exact H0|].
    destruct (tstep t0 ev) as [t1|] eqn:E; [|discriminate]. inversion BO as [|? ? B1 B2]; subst. apply (IH t1); [eapply step_fine; eassumption| |exact R|exact B2].
    destruct ev as [ed p|ed k|now s' h x]; cbn [tstep by_others event_ok] in *.
    - destruct (C91_security ed p t0 t1 B1 EV E) as (_ & _ & _ & _ & F). clear - F H0. induction F as [|a b A B X _ IH]; [constructor|].
      inversion H0; subst. constructor; [eapply harmless_tightened; eassumption|apply IH; assumption].
    - apply add_inv in E as (_ & s & Is & X & _). rewrite X. apply Forall_app. split; [exact H0|]. constructor; [|constructor]. rewrite Forall_forall in H0. exact (H0 s Is).
    - destruct F0 as (_ & U & Rg). apply update_inv in E as (first & L & EL & X). rewrite X. apply Forall_forall. intros y Iy. apply in_map_iff in Iy as (s & <- & Is).
      rewrite Forall_forall in H0, Rg. apply (harmless_update _ _ _ _ _ _ now); [apply Rg, Is| |apply H0, Is]. intros D. apply andb_true_iff in D as [D1 D2].
      apply Z.ltb_lt in D1. apply Z.leb_le in D2. assert (A : alike first s) by (apply U; [rewrite EL; left; reflexivity|exact Is]).
      assert (Sh : s_shift first = s_shift s) by (change (s_shift (with_fallback 0 first) = s_shift (with_fallback 0 s)); unfold alike in A; rewrite A; reflexivity).
      rewrite Sh in D1, D2. split; assumption. }
  eapply Forall_impl; [|exact K]. intros s (M & I & S & D). split; [exact M|]. split; [exact I|]. split; [|exact D].
  unfold strictness in S. destruct (Z.eqb_spec (s_ro s) 1); [left; assumption|]. destruct (Z.eqb_spec (s_ro s) 2); [right; assumption|lia].
Qed.
Print Assumptions C94_harmless.
(** such settings make a deposit count for nothing in every kind of health *)
Theorem C94_no_collateral ix now s b pr native t ty x :
  fst (maint_at s now) = 0 -> s_iaw s = 0 -> token_info (health_cfg ix now s) b pr native = Some t -> 0 <= x -> contribution t ty x = 0.
Proof.
  intros M I H X. unfold token_info, health_cfg in H. rewrite M, I in H. destruct (scaled_init_asset_weight _ _ _) as [aw|] eqn:A; [|discriminate].
  destruct (scaled_init_liab_weight _ _ _) as [lw|]; [|discriminate]. apply some_inj in H. subst t.
  assert (AW : aw = 0).
  { unfold scaled_init_asset_weight in A. cbn [wc_dep_start wc_init_aw] in A. destruct (start_of _); [|apply some_inj in A; auto]. destruct (_ <=? _); [apply some_inj in A; auto|].
    destruct (quot_fx _ _); [|discriminate]. cbn [option_map] in A. apply some_inj in A. subst aw. apply fmul_0_l. }
  subst aw. unfold contribution, asset_wp. destruct (Z.ltb_spec x 0); [lia|]. destruct ty; cbn [asset_weight ti_scaled_aw ti_init_aw ti_maint_aw]; rewrite fmul_0_l; unfold fmul; rewrite Z.mul_0_r; apply Z.div_0_l; pose proof fone_pos; lia.
Qed.
Print Assumptions C94_no_collateral.
Definition ex_listings : list fevent := [FList 1000; FList 2000; FList 3000; FAllow 1; FList 604800; FList 700000; FAllow 3; FList 1209599; FList 1209600].
Example C94_example :
  in_time 0 ex_listings /\ Forall (allows_at_most 3) ex_listings /\ listed (mkFL 0 0 2) ex_listings = [1000; 2000; 604800; 1209599; 1209600] /\
  exists t, token_after (LTrustless (ex_env 5 300) 300 11 12 13 14 15) [EAddBank (ex_env 6 100) 0; EUpdate 5000 17 true f_zero; EEdit (ex_env 6000 200) (params_of None (Some 1) None None true)] = Some t /\
    length (tk_banks t) = 2%nat /\ Forall (fun s => s_ro s = 1 /\ s_sp s = 17 /\ s_curve s = f_one) (tk_banks t) /\
  register_trustless (ex_env 5 400) 300 11 12 13 14 15 = None.
Proof.
  split; [vm_compute; intuition discriminate|]. split; [repeat (constructor; [vm_compute; try exact I; discriminate|]); constructor|]. split; [vm_compute; reflexivity|].
  eexists. split; [vm_compute; reflexivity|]. split; [reflexivity|]. split; [repeat (constructor; [split; [reflexivity|split; reflexivity]|]); constructor|]. vm_compute. reflexivity.
Qed.
