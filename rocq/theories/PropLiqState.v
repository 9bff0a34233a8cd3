(** C35, C37, C62, C63: health checks, the being-liquidated state, bankruptcy, weight shifts. *)
From Coq Require Import List ZArith Lia Bool Arith.
From Verif Require Import Fixed PerpTypes Health HealthSpec HealthFacts HealthDiv HealthOrders HealthMore HealthSkip PropHealth LiqState.
Import ListNotations.
Open Scope Z_scope.

(** ** C35 *)
Lemma fceil_le x n : fceil x <= of_int n <-> x <= of_int n.
Proof.
  unfold fceil, of_int. pose proof fone_pos as F. pose proof (Z.div_mod (- x) fone ltac:(lia)) as D. pose proof (Z.mod_pos_bound (- x) fone F) as M.
  set (q := - x / fone) in *. clearbody q. split; intros H; [nia|]. apply Z.mul_le_mono_nonneg_r; [lia|]. nia.
Qed.
Lemma fceil_int x : exists n, fceil x = of_int n.
Proof. exists (- (- x / fone)). reflexivity. Qed.
Lemma fceil_bounds x : x <= fceil x < x + fone.
Proof.
  unfold fceil. pose proof fone_pos as F. pose proof (Z.div_mod (- x) fone ltac:(lia)) as D. pose proof (Z.mod_pos_bound (- x) fone F) as M. nia.
Qed.
Lemma fceil_cmp x y : fceil x <= fceil y <-> forall n, y <= of_int n -> x <= of_int n.
Proof.
  split.
  - intros H n Hn. apply fceil_le. apply fceil_le in Hn. lia.
  - intros H. destruct (fceil_int y) as [n E]. rewrite E. apply fceil_le. apply H. apply fceil_le. lia.
Qed.
(** an instruction is accepted iff the new initial health is at least zero, or not lower
    than before; below -1000 native units it is enough that no whole number of native units
    separates them *)
Theorem C35_rule pre post : post_check pre post = true <->
  0 <= post \/ pre <= post \/ (post < of_int (-1000) /\ forall n, post <= of_int n -> pre <= of_int n).
Proof.
  unfold post_check. rewrite orb_true_iff, Z.leb_le. destruct (Z.ltb_spec post (of_int (-1000))).
  - rewrite Z.leb_le, fceil_cmp. split; [intros [|]; tauto|]. intros [|[|[_ ?]]]; [tauto| |tauto]. right. intros; lia.
  - rewrite Z.leb_le. split; [tauto|]. intros [|[|[? _]]]; [tauto|tauto|lia].
Qed.
Print Assumptions C35_rule.
(** so: never from non-negative to negative health, and never down by a native unit *)
Theorem C35_no_harm pre post : post_check pre post = true -> 0 <= post \/ (pre < 0 /\ pre - fone < post).
Proof.
  intros H. apply C35_rule in H as [H|[H|[H1 H2]]]; [tauto| |].
  - pose proof fone_pos. destruct (Z_le_gt_dec 0 post); [tauto|right; lia].
  - right. pose proof (fceil_bounds pre). pose proof (fceil_bounds post). assert (fceil pre <= fceil post) by (apply fceil_cmp; exact H2).
    split; [|lia]. assert (post <= of_int (-1000)) by lia. apply H2 in H4. unfold of_int in H4. pose proof fone_pos. lia.
Qed.
Print Assumptions C35_no_harm.
(** any number of instructions, health changing only through them: the grace amount of
    one native unit is not given twice *)
Inductive checked : fx -> fx -> Prop :=
| checked_refl h : checked h h
| checked_step h0 h1 h2 : checked h0 h1 -> post_check h1 h2 = true -> checked h0 h2.
Theorem C35_many h0 h : checked h0 h -> 0 <= h \/ (h0 < 0 /\ h0 - fone < h).
Proof.
  intros H. assert (X : 0 <= h \/ (h0 < 0 /\ fceil h0 <= fceil h) \/ h0 = h).
  { induction H as [h|h0 h1 h2 _ IH S]; [auto|]. apply C35_rule in S as [S|[S|[S1 S2]]]; [auto| |].
    - assert (C : fceil h1 <= fceil h2) by (apply fceil_cmp; intros; lia). destruct (Z_le_gt_dec 0 h2); [auto|]. destruct IH as [IH|[[IH1 IH2]|<-]]; [lia|right; left; lia|right; left; lia].
    - apply fceil_cmp in S2 as S3. assert (h1 < 0) by (assert (Y : h2 <= of_int (-1000)) by lia; apply S2 in Y; unfold of_int in Y; pose proof fone_pos; lia).
      destruct IH as [IH|[[IH1 IH2]|<-]]; [lia|right; left; lia|right; left; lia]. }
  destruct X as [X|[[X1 X2]| <-]]; [auto| |].
  - right. pose proof (fceil_bounds h0). pose proof (fceil_bounds h). lia.
  - pose proof fone_pos. destruct (Z_le_gt_dec 0 h0); [auto|right; lia].
Qed.
Print Assumptions C35_many.
Example C35_example :
  post_check (of_int (-2000) + 1) (of_int (-2000)) = false /\ post_check (of_int (-2000) + 9) (of_int (-2000) + 5) = true /\
  post_check (of_int (-20) + 9) (of_int (-20) + 5) = false /\ post_check (of_int (-20)) (of_int (-20)) = true /\ post_check 5 (-1) = false /\
  checked (of_int (-2000) + 9) (of_int (-2000) + 3).
Proof.
  repeat (split; [vm_compute; reflexivity|]). apply (checked_step _ (of_int (-2000) + 5)); [apply (checked_step _ (of_int (-2000) + 9)); [constructor|]|]; vm_compute; reflexivity.
Qed.

(** ** C37 *)
Lemma recover_spec f h : recover f h = true <-> f = true /\ h <= - fone.
Proof. unfold recover. rewrite andb_true_iff, negb_true_iff, Z.ltb_ge. tauto. Qed.
(** the flag is set only when maintenance health is negative, or by bankruptcy *)
Theorem C37_start i b a : run_instr false i b a = Some true ->
  (h_maint b < 0 /\ (i = ILiquidate \/ exists f, i = IForceCancel f)) \/ i = IBankrupt true true.
Proof.
  destruct i as [| | |f|p bw|]; cbn [run_instr].
  - unfold pre_check. cbn [recover andb]. destruct (post_check _ _); discriminate.
  - discriminate.
  - unfold check_liquidatable. destruct (Z.leb_spec 0 (h_maint b)); [discriminate|]. intros _. left. auto.
  - unfold check_liquidatable. destruct (Z.leb_spec 0 (h_maint b)); [destruct f; discriminate|]. intros _. left. eauto.
  - destruct p, bw; cbn [andb]; try discriminate. auto.
  - discriminate.
Qed.
Print Assumptions C37_start.
(** it is left only when liquidation-end health (or initial health, where that is checked
    first) is above minus one native unit *)
Theorem C37_leave i b a : run_instr true i b a = Some false ->
  - fone < h_liq_end b \/ - fone < h_liq_end a \/ (i = INormal /\ - fone < h_init b).
Proof.
  destruct i as [| | |f|p bw|]; cbn [run_instr]; unfold pre_check, check_liquidatable, recover; cbn [andb].
  - destruct (Z.ltb_spec (- fone) (h_init b)); cbn [negb andb]; [auto|]. destruct (Z.ltb_spec (- fone) (h_liq_end b)); cbn [negb]; [auto|discriminate].
  - destruct (Z.ltb_spec (- fone) (h_liq_end a)); cbn [negb]; [auto|discriminate].
  - destruct (Z.ltb_spec (- fone) (h_liq_end b)); cbn [negb andb]; [auto|]. destruct (Z.ltb_spec (- fone) (h_liq_end a)); cbn [negb]; [auto|discriminate].
  - destruct (Z.ltb_spec (- fone) (h_liq_end b)); cbn [negb andb]; [auto|]. destruct (Z.ltb_spec (- fone) (h_liq_end a)); cbn [negb]; [auto|discriminate].
  - destruct (p && bw); [|discriminate]. destruct (Z.ltb_spec (- fone) (h_liq_end a)); cbn [negb]; [auto|discriminate].
  - destruct (Z.ltb_spec (- fone) (h_liq_end a)); cbn [negb]; [auto|discriminate].
Qed.
Print Assumptions C37_leave.
(** while an account is in liquidation (both healths at or below -1), orders, withdrawals,
    loans and deposits that do not end it fail, and liquidations go on *)
Theorem C37_blocked b a : h_liq_end b <= - fone -> h_init b <= - fone ->
  run_instr true INormal b a = None /\
  (h_liq_end a <= - fone -> run_instr true IDeposit b a = None) /\
  (h_liq_end a <= - fone -> run_instr true ILiquidate b a = Some true).
Proof.
  intros H1 H2. cbn [run_instr]. unfold pre_check, check_liquidatable, recover. cbn [andb].
  destruct (Z.ltb_spec (- fone) (h_init b)); [lia|]. destruct (Z.ltb_spec (- fone) (h_liq_end b)); [lia|]. cbn [negb andb].
  split; [reflexivity|]. split; intros H3; destruct (Z.ltb_spec (- fone) (h_liq_end a)); try lia; reflexivity.
Qed.
Print Assumptions C37_blocked.
(** over any history: an account in liquidation has been put there by a liquidation that
    found negative maintenance health or by bankruptcy, and every instruction since has
    found or left its liquidation-end health at or below minus one native unit *)
Definition starts (e : instr * healths * healths) : Prop :=
  let '(i, b, a) := e in
  ((h_maint b < 0 /\ (i = ILiquidate \/ exists f, i = IForceCancel f)) \/ i = IBankrupt true true) /\ h_liq_end a <= - fone.
Theorem C37_history H : run_history false H = Some true ->
  exists H1 e H2, H = H1 ++ e :: H2 /\ starts e /\ Forall (fun '(i, b, a) => h_liq_end a <= - fone) H2.
Proof.
  assert (G : forall f H, run_history f H = Some true ->
    (f = true /\ Forall (fun '(i, b, a) => h_liq_end a <= - fone) H) \/
    exists H1 e H2, H = H1 ++ e :: H2 /\ starts e /\ Forall (fun '(i, b, a) => h_liq_end a <= - fone) H2).
  { intros f H0. revert f. induction H0 as [|[[i b] a] H0 IH]; intros f R; cbn [run_history] in R.
    - apply some_inj in R; subst. left. auto.
    - destruct (run_instr f i b a) as [f'|] eqn:E; [|discriminate]. destruct (IH _ R) as [[-> F]|(H1 & e & H2 & -> & S & F)].
      + assert (A : h_liq_end a <= - fone).
        { clear - E. destruct i as [| | |g|p bw|]; cbn [run_instr] in E.
          - exfalso. unfold pre_check in E. destruct (recover f (h_init b)); [destruct (recover true (h_liq_end b)); [discriminate|]|]; destruct (post_check _ _); discriminate.
          - destruct f; [destruct (recover true _); discriminate|discriminate].
          - destruct (check_liquidatable _ _ _) as [[| |] f'] eqn:C; unfold check_liquidatable in C; destruct f; [destruct (recover true _)|destruct (0 <=? _)|destruct (recover true _)|destruct (0 <=? _)|destruct (recover true _)|destruct (0 <=? _)]; try discriminate; inversion C; subst; try discriminate; apply some_inj in E; apply recover_spec in E; tauto.
          - destruct (check_liquidatable _ _ _) as [[| |] f'] eqn:C; unfold check_liquidatable in C; destruct f; [destruct (recover true _)|destruct (0 <=? _)|destruct (recover true _)|destruct (0 <=? _)|destruct (recover true _)|destruct (0 <=? _)]; try discriminate; inversion C; subst; try (destruct g; discriminate); apply some_inj in E; apply recover_spec in E; tauto.
          - destruct (p && bw); [|discriminate]. apply some_inj in E. apply recover_spec in E. tauto.
          - apply some_inj in E. apply recover_spec in E. tauto. }
        destruct f; [left; split; [reflexivity|constructor; assumption]|]. right. exists [], (i, b, a), H0. split; [reflexivity|]. split; [|exact F].
        split; [apply (C37_start _ _ _ E)|exact A].
      + right. exists ((i, b, a) :: H1), e, H2. auto. }
  intros R. destruct (G _ _ R) as [[? _]|]; [discriminate|assumption].
Qed.
Print Assumptions C37_history.
Example C37_example :
  let bad := mkHs (of_int (-9)) (of_int (-5)) (of_int (-2)) in let mid := mkHs (of_int (-9)) (of_int (-5)) (of_int 2) in let good := mkHs 0 (- (fone / 2)) (of_int 2) in
  run_history false [(INormal, mid, mid); (ILiquidate, mid, mid); (ILiquidate, bad, mid); (ILiquidate, mid, mid)] = Some true /\
  run_history false [(ILiquidate, bad, mid); (INormal, mid, mid)] = None /\
  run_history false [(ILiquidate, bad, mid); (IDeposit, mid, good); (INormal, good, good)] = Some false.
Proof. vm_compute. auto. Qed.

(** ** C62: bankruptcy *)
(** when nothing is left for the first two phases and there is a borrow, no asset that
    counts is worth more than one native unit: the account's health is at most the value
    of one native unit of each token, minus the value of the borrows.  ([ti_liq_ok] false
    only with asset weight zero: Bank::verify, bank.rs:424-427.) *)
Theorem C62_nothing_left hc Z h B :
  cache_ok hc -> flags_ok hc -> Forall (fun t => ti_liq_ok t = false -> ti_init_aw t = 0) (hc_tokens hc) ->
  balances hc HLiqEnd false = Some B -> Z = combine (hc_tokens hc) B ->
  after_phase2 hc Z = true -> existsb liq_borrow Z = true -> health hc HLiqEnd = Some h ->
  h <= sum (map (fun tb => if snd tb <? 0 then contribution (fst tb) HLiqEnd (snd tb) else asset_wp (fst tb) HLiqEnd) Z).
Proof.
  intros (T & P & N) (F1 & F2) LQ HB HZ HA HBr Hh. unfold after_phase2, after_phase1 in HA.
  apply andb_true_iff in HA as [HA Ep]. apply andb_true_iff in HA as [HA _]. apply andb_true_iff in HA as [HA Eb]. apply andb_true_iff in HA as [HA Es]. apply andb_true_iff in HA as [E1 E2].
  apply negb_true_iff in Ep, Eb, Es, E1, E2. unfold has_spot_liquidations in Es. rewrite HBr in Es. cbn [andb] in Es.
  assert (EX : forall (A : Type) (f : A -> bool) (l : list A), existsb f l = false -> Forall (fun a => f a = false) l).
  { intros A f l. induction l as [|a l IH]; intros E; constructor; cbn [existsb] in E; apply orb_false_iff in E as [Ea El]; [exact Ea|apply IH; exact El]. }
  apply EX in Ep, Eb, Es, E1, E2.
  assert (NR : no_reserved hc).
  { unfold no_reserved. rewrite Forall_forall in *. intros s Hs. specialize (E1 s Hs). cbn in E1. apply negb_false_iff in E1. exact (F1 s Hs E1). }
  assert (HP : Forall (fun pi => hupnl pi HLiqEnd <= 0) (hc_perps hc)).
  { rewrite Forall_forall in *. intros pi Hpi. specialize (E2 pi Hpi). specialize (Ep pi Hpi). specialize (Eb pi Hpi). destruct (F2 pi Hpi E2) as [B0 A0]. cbn in Ep, Eb.
    apply negb_false_iff in Eb. rewrite Eb in Ep. cbn [andb] in Ep. apply Z.eqb_eq in Eb. apply Z.ltb_ge in Ep.
    unfold hupnl, uhupnl, execution_case. rewrite B0, A0, Eb. cbn [Z.add Z.opp Z.mul Z.ltb Z.compare]. change (of_int 0) with 0. cbn [Z.opp]. rewrite !fmul_0_l. cbn [Z.add Z.min Z.compare].
    rewrite Z.add_0_r. destruct (Z.ltb_spec 0 (pi_quote pi)); lia. }
  destruct (health_no_reserved _ _ _ NR Hh) as (B' & HB' & ->). rewrite HB in HB'. apply some_inj in HB'. subst B'.
  pose proof (balances_map _ _ _ N HB) as EB.
  assert (TB : forall t, token_balance (hc_perps hc) HLiqEnd t <= ti_spot t).
  { intros t. unfold token_balance. enough (sum (map (fun pi => if pi_settle pi =? ti_index t then hupnl pi HLiqEnd else 0) (hc_perps hc)) <= 0) by lia. clear -HP.
    induction HP as [|pi P H _ IH]; [reflexivity|]. cbn [map]. rewrite sum_cons. destruct (_ =? _); lia. }
  subst B Z. unfold token_contributions. clear - T LQ Es TB. induction (hc_tokens hc) as [|t L IH]; [reflexivity|].
  cbn [map combine] in *. inversion Es as [|? ? H1 H2]; subst. inversion T as [|? ? Tt TL]; subst. inversion LQ as [|? ? Lt LL]; subst. specialize (IH TL LL H2). rewrite !sum_cons. cbn [fst snd].
  apply Z.add_le_mono; [|exact IH]. specialize (TB t). unfold liq_asset in H1. cbn [fst snd] in H1. set (b := token_balance _ _ _) in *. clearbody b.
  destruct (Z.ltb_spec b 0); [lia|]. unfold contribution. destruct (Z.ltb_spec b 0); [lia|].
  pose proof (asset_wp_le t HLiqEnd HLiqEnd (stricter_refl _) Tt) as [W _].
  destruct (ti_liq_ok t) eqn:EL.
  - rewrite andb_true_r in H1. apply andb_false_iff in H1. assert (b < fone) by (destruct H1 as [H1|H1]; apply Z.leb_gt in H1; lia).
    pose proof (fmul_bounds b (asset_wp t HLiqEnd)). pose proof fone_pos. nia.
  - assert (asset_wp t HLiqEnd = 0) by (unfold asset_wp; cbn [asset_weight]; rewrite (Lt eq_refl); reflexivity). rewrite H3, fmul_0_r. lia.
Qed.
Print Assumptions C62_nothing_left.
Example C62_example :
  let hc := mkHC [tok_w 0 80 120 (-20); mkTI 1 0 0 0 (pc 120) (pc 120) (pc 120) (mkPr fone fone) (of_int 5000) false] [] [perp_w 1 80 90 0 (-5) 0 0] in
  cache_ok hc /\ flags_ok hc /\ exists B h, balances hc HLiqEnd false = Some B /\ after_phase2 hc (combine (hc_tokens hc) B) = true /\
    existsb liq_borrow (combine (hc_tokens hc) B) = true /\ health hc HLiqEnd = Some h /\ h < of_int (-20).
Proof.
  cbv zeta. split.
  - split; [repeat (apply Forall_cons || apply Forall_nil); unfold token_ok, prices_ok; zr|]. split.
    + constructor; [|constructor]. unfold perp_ok, prices_ok. zr.
    + cbn [hc_tokens map tok_w ti_index]. repeat constructor; cbn; intuition discriminate.
  - split; [split; [constructor|constructor; [|constructor]; intros _; split; reflexivity]|].
    eexists. eexists. split; [vm_compute; reflexivity|]. split; [vm_compute; reflexivity|]. split; [vm_compute; reflexivity|]. split; [vm_compute; reflexivity|]. zle.
Qed.
(** one native unit can be worth a lot: a healthy account with one borrow and 0.9 native
    units of a token priced at 1000 per unit is taken for bankrupt *)
Theorem C62_unhealthy_only_refuted : exists hc B h, cache_ok hc /\ flags_ok hc /\ balances hc HLiqEnd false = Some B /\
  after_phase2 hc (combine (hc_tokens hc) B) = true /\ existsb liq_borrow (combine (hc_tokens hc) B) = true /\
  health hc HLiqEnd = Some h /\ of_int 600 < h.
Proof.
  exists (mkHC [tok_w 0 80 120 (-20); mkTI 1 (pc 80) (pc 80) (pc 80) (pc 120) (pc 120) (pc 120) (mkPr (of_int 1000) (of_int 1000)) (fone * 9 / 10) true] [] []).
  eexists. eexists. split.
  - split; [repeat (apply Forall_cons || apply Forall_nil); unfold token_ok, prices_ok; zr|]. split; [constructor|].
    cbn [hc_tokens map tok_w ti_index]. repeat constructor; cbn; intuition discriminate.
  - split; [split; constructor|]. split; [vm_compute; reflexivity|]. split; [vm_compute; reflexivity|]. split; [vm_compute; reflexivity|]. split; [vm_compute; reflexivity|]. zle.
Qed.
Print Assumptions C62_unhealthy_only_refuted.

(** ** C63: shifting maintenance weights *)
(** during a shift both weights are between the old weight and the target, and time moves
    them only towards the target *)
Theorem C63_between aw lw s now a l :
  0 <= sh_start s -> sh_inv s = shift_inv (sh_start s) (sh_end s) -> maint_weights aw lw s now = (a, l) ->
  Z.min aw (sh_asset s) <= a <= Z.max aw (sh_asset s) /\ Z.min lw (sh_liab s) <= l <= Z.max lw (sh_liab s).
Proof.
  intros S0 HI H. unfold maint_weights in H. destruct (_ || _) eqn:E; [inversion H; subst; lia|]. apply orb_false_iff in E as [E1 E2]. apply Z.eqb_neq in E1. apply Z.leb_gt in E2.
  destruct (Z.leb_spec (sh_end s) now) as [E3|E3]; [inversion H; subst; lia|]. rewrite HI in *. unfold shift_inv in *. destruct (Z.leb_spec (sh_end s) (sh_start s)); [lia|].
  rewrite fmul_int_l in H. set (d := sh_end s - sh_start s) in *. set (e := now - sh_start s) in *.
  assert (X1 : 0 <= fone) by (pose proof fone_pos; lia). assert (X2 : 0 < of_int d) by (unfold of_int, d; pose proof fone_pos; nia).
  pose proof (fdiv_pos_bounds fone (of_int d) X1 X2) as Q. pose proof (fdiv_nonneg fone (of_int d) X1 X2) as Q0. set (q := fdiv fone (of_int d)) in *. clearbody q. unfold of_int in Q.
  assert (K : 0 <= e * q <= fone) by (pose proof fone_pos; unfold e, d in *; nia). inversion H; subst a l. clear H.
  assert (G : forall w t, Z.min w t <= w + fmul (e * q) (t - w) <= Z.max w t).
  { intros w t. pose proof (fmul_bounds (e * q) (t - w)) as M. revert K M. generalize (e * q) (fmul (e * q) (t - w)). intros k m K M. pose proof fone_pos as F. clear - K M F.
    destruct (Z_le_gt_dec w t); [rewrite Z.min_l, Z.max_r by lia; nia|rewrite Z.min_r, Z.max_l by lia; nia]. }
  split; apply G.
Qed.
Print Assumptions C63_between.
Theorem C63_monotone aw lw s n1 n2 a1 l1 a2 l2 :
  0 <= sh_start s -> sh_inv s = shift_inv (sh_start s) (sh_end s) -> n1 <= n2 ->
  maint_weights aw lw s n1 = (a1, l1) -> maint_weights aw lw s n2 = (a2, l2) ->
  (aw <= sh_asset s -> a1 <= a2) /\ (sh_asset s <= aw -> a2 <= a1) /\ (lw <= sh_liab s -> l1 <= l2) /\ (sh_liab s <= lw -> l2 <= l1).
Proof.
  intros S0 HI Hn H1 H2. pose proof (C63_between _ _ _ _ _ _ S0 HI H1) as B1. pose proof (C63_between _ _ _ _ _ _ S0 HI H2) as B2.
  unfold maint_weights in H1, H2. destruct (Z.eqb_spec (sh_inv s) 0) as [I0|I0]; cbn [orb] in *; [inversion H1; inversion H2; subst; lia|].
  destruct (Z.leb_spec n1 (sh_start s)); [inversion H1; subst; lia|]. destruct (Z.leb_spec n2 (sh_start s)); [lia|].
  destruct (Z.leb_spec (sh_end s) n2); [inversion H2; subst; lia|]. destruct (Z.leb_spec (sh_end s) n1); [lia|].
  rewrite !fmul_int_l in H1, H2. inversion H1; inversion H2; subst. clear H1 H2 B1 B2.
  assert (Q : 0 <= sh_inv s).
  { rewrite HI. unfold shift_inv. destruct (Z.leb_spec (sh_end s) (sh_start s)); [lia|]. apply fdiv_nonneg; [pose proof fone_pos; lia|]. unfold of_int. pose proof fone_pos. nia. }
  set (q := sh_inv s) in *. clearbody q. set (u := (n1 - sh_start s) * q). set (v := (n2 - sh_start s) * q). assert (UV : 0 <= u <= v) by (unfold u, v; nia).
  assert (M1 : forall d, 0 <= d -> fmul u d <= fmul v d) by (intros; apply fmul_mono_l; lia).
  assert (M2 : forall d, d <= 0 -> fmul v d <= fmul u d) by (intros d Hd; rewrite (fmul_comm v), (fmul_comm u); apply fmul_anti; lia).
  split; [intros; specialize (M1 (sh_asset s - aw)); lia|]. split; [intros; specialize (M2 (sh_asset s - aw)); lia|]. split; [intros; specialize (M1 (sh_liab s - lw)); lia|intros; specialize (M2 (sh_liab s - lw)); lia].
Qed.
Print Assumptions C63_monotone.
Example C63_example :
  let s := mkShift 1000 2000 (shift_inv 1000 2000) (pc 50) (pc 150) in
  fst (maint_weights (pc 80) (pc 120) s 1500) < pc 66 /\ pc 64 < fst (maint_weights (pc 80) (pc 120) s 1500) /\
  maint_weights (pc 80) (pc 120) s 900 = (pc 80, pc 120) /\ maint_weights (pc 80) (pc 120) s 2000 = (pc 50, pc 150).
Proof. cbv zeta. split; [zle|]. split; [zle|]. split; vm_compute; reflexivity. Qed.
