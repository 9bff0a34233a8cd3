(** Lemmas about edits of settings. *)
From Coq Require Import List ZArith Lia Bool.
From Verif Require Import Bank Health HealthSpec HealthFacts HealthDiv HealthOrders Scaling ScalingFacts LiqState AdminEdit AdminSpec Fixed.
Import ListNotations.
Open Scope Z_scope.

Lemma given_false {A} (o : option A) : given o = false -> o = None.
Proof. destruct o; [discriminate|reflexivity]. Qed.
Lemma nonzero_false f : flt_nonzero f = false -> f = f_zero.
Proof. destruct f as [| |[| |]]; try discriminate. reflexivity. Qed.
Lemma from_num_zero : from_num f_zero = Some 0.
Proof. vm_compute. reflexivity. Qed.

(** [edit_one], step by step *)
Ltac edit_steps H :=
  unfold edit_one in H;
  match type of H with (if ?c then _ else _) = _ => let C := fresh "C" in destruct c eqn:C; [discriminate H|] end;
  repeat match type of H with
  | match ?x with Some _ => _ | None => None end = Some _ => let E := fresh "E" in destruct x eqn:E; [|discriminate H]
  | (let '(_, _) := ?x in _) = Some _ => let E := fresh "E" in destruct x eqn:E
  end.
Lemma edit_one_flag e p s s' f : edit_one e p s = Some (s', f) -> f = needs_admin p s.
Proof.
  intros H. edit_steps H. destruct p0 as [[[[[a b] c] d] g] h].
  repeat match type of H with
  | match ?x with Some _ => _ | None => None end = Some _ => let E := fresh "E" in destruct x eqn:E; [|discriminate H]
  end. cbv zeta in H.
  match type of H with (if ?c then _ else _) = _ => destruct c; [discriminate H|] end.
  match type of H with (let '(_, _) := ?x in _) = _ => destruct x as [m l] end.
  repeat match type of H with
  | match ?x with Some _ => _ | None => None end = Some _ => let E := fresh "E" in destruct x eqn:E; [|discriminate H]
  end. apply some_inj in H. apply pair_equal_spec in H as [_ H]. symmetry; exact H.
Qed.
Record secured (p : params) (s : tset) : Prop := {
  sec_iaw : p_iaw p = None \/ p_iaw p = Some f_zero;
  sec_plat : p_plat p = None \/ p_plat p = Some f_zero;
  sec_cfee : p_cfee p = None \/ p_cfee p = Some f_zero;
  sec_ro : p_ro p = None \/ exists r, p_ro p = Some r /\ r <> 0 /\ (r <> 2 \/ s_ro s <> 1);
  sec_tok : p_oracle p = None /\ p_fallback p = None /\ p_insurance p = None }.
Lemma secured_of p s : needs_admin p s = false -> secured p s.
Proof.
  unfold needs_admin. intros H. repeat (apply orb_false_iff in H as [H ?]).
  repeat match goal with X : given _ = false |- _ => apply given_false in X end. constructor.
  - destruct (p_iaw p) as [f|]; [right|left; reflexivity]. match goal with X : flt_nonzero f = false |- _ => rewrite (nonzero_false _ X) end. reflexivity.
  - destruct (p_plat p) as [f|]; [right|left; reflexivity]. match goal with X : flt_nonzero f = false |- _ => rewrite (nonzero_false _ X) end. reflexivity.
  - destruct (p_cfee p) as [f|]; [right|left; reflexivity]. match goal with X : flt_nonzero f = false |- _ => rewrite (nonzero_false _ X) end. reflexivity.
  - destruct (p_ro p) as [r|]; [right|left; reflexivity]. exists r. match goal with X : (_ =? 0) || _ = false |- _ => apply orb_false_iff in X as [X1 X2] end.
    apply Z.eqb_neq in X1. split; [reflexivity|]. split; [exact X1|]. apply andb_false_iff in X2 as [X2|X2]; apply Z.eqb_neq in X2; auto.
  - auto.
Qed.
Lemma edit_secured e p s s' : edit_one e p s = Some (s', false) ->
  (forall r, p_ro p = Some r -> 0 <= r <= 2) -> tightened (e_now e) s s' /\ (forall r, p_ro p = Some r -> s_ro s' = r) /\ (p_ro p = None -> s_ro s' = s_ro s) /\
  (p_abort p = true -> maint_at s (e_now e) = (s_maw s', s_mlw s')).
Proof.
  intros H R. pose proof (edit_one_flag _ _ _ _ _ H) as N. symmetry in N. pose proof (secured_of _ _ N) as [I P Cf Ro _].
  unfold needs_admin in N. repeat (apply orb_false_iff in N as [N ?]). 
  repeat match goal with X : given ?o = false |- _ => apply given_false in X end.
  unfold edit_one in H.
  match type of H with (if ?c then _ else _) = _ => destruct c; [discriminate H|] end.
  repeat match goal with X : ?o = None |- _ => rewrite X in H; clear X end.
  repeat match goal with X : p_reset_sp p = false |- _ => rewrite X in H; clear X end.
  cbn [num_opt opt given orb] in H.
  assert (I' : exists iaw, num_opt (p_iaw p) (s_iaw s) = Some iaw /\ (iaw = s_iaw s \/ iaw = 0))
    by (destruct I as [->| ->]; cbn [num_opt]; rewrite ?from_num_zero; eauto).
  assert (P' : exists plat, num_opt (p_plat p) (s_plat s) = Some plat /\ (plat = s_plat s \/ plat = 0))
    by (destruct P as [->| ->]; cbn [num_opt]; rewrite ?from_num_zero; eauto).
  destruct I' as (iaw & EI & HI). destruct P' as (plat & EP & HP). rewrite EI, EP in H. clear EI EP I P.
  assert (C' : opt (p_cfee p) (s_cfee s) = s_cfee s \/ opt (p_cfee p) (s_cfee s) = f_zero) by (destruct Cf as [->| ->]; cbn [opt]; auto).
  set (cf := opt (p_cfee p) (s_cfee s)) in *. clearbody cf.
  assert (R' : (forall r, p_ro p = Some r -> opt (p_ro p) (s_ro s) = r) /\ (p_ro p = None -> opt (p_ro p) (s_ro s) = s_ro s))
    by (clear; destruct (p_ro p); split; intros; cbn [opt]; congruence).
  assert (R2 : opt (p_ro p) (s_ro s) = s_ro s \/ (strictness (s_ro s) <= strictness (opt (p_ro p) (s_ro s)) /\ 0 <= opt (p_ro p) (s_ro s) <= 2)).
  { destruct Ro as [->|(r & Er & R1 & R3)]; [left; reflexivity|right]. specialize (R r Er). rewrite Er. cbn [opt]. split; [|exact R].
    unfold strictness. destruct (Z.eqb_spec r 1), (Z.eqb_spec r 2), (Z.eqb_spec (s_ro s) 1), (Z.eqb_spec (s_ro s) 2); lia. }
  set (ro := opt (p_ro p) (s_ro s)) in *. clearbody ro. clear R Ro.
  destruct R' as [RA RB]. destruct (p_abort p).
  - destruct (maint_weights (s_maw s) (s_mlw s) (s_shift s) (e_now e)) as [m l] eqn:M. cbn [sh_start sh_end sh_inv sh_asset sh_liab] in H.
    apply some_inj in H. apply pair_equal_spec in H as [H _]. subst s'. split; [|split; [exact RA|split; [exact RB|intros _; exact M]]].
    unfold tightened, maint_at. cbn [s_maw s_iaw s_mlw s_ro s_shift s_plat s_cfee].
    split; [reflexivity|]. split; [exact HI|]. split; [exact HP|]. split; [exact C'|]. split; [exact R2|].
    right. intros t. rewrite M. reflexivity.
  - destruct (s_shift s) as [a b c d f] eqn:S. cbn [sh_start sh_end sh_inv sh_asset sh_liab] in H.
    apply some_inj in H. apply pair_equal_spec in H as [H _]. subst s'. split; [|split; [exact RA|split; [exact RB|discriminate]]].
    unfold tightened, maint_at. cbn [s_maw s_iaw s_mlw s_ro s_shift s_plat s_cfee].
    split; [reflexivity|]. split; [exact HI|]. split; [exact HP|]. split; [exact C'|]. split; [exact R2|].
    left. intros t. rewrite S. reflexivity.
Qed.

(** reduce-only after an edit *)
Lemma edit_one_ro e p s s' f : edit_one e p s = Some (s', f) -> s_ro s' = opt (p_ro p) (s_ro s).
Proof.
  intros H. edit_steps H. destruct p0 as [[[[[a b] c] d] g] h].
  repeat match type of H with
  | match ?x with Some _ => _ | None => None end = Some _ => let E := fresh "E" in destruct x eqn:E; [|discriminate H]
  end. cbv zeta in H.
  match type of H with (if ?c then _ else _) = _ => destruct c; [discriminate H|] end.
  match type of H with (let '(_, _) := ?x in _) = _ => destruct x as [m l] end.
  repeat match type of H with
  | match ?x with Some _ => _ | None => None end = Some _ => let E := fresh "E" in destruct x eqn:E; [|discriminate H]
  end. apply some_inj in H. apply pair_equal_spec in H as [H _]. subst s'. reflexivity.
Qed.
Lemma edit_one_fc e p s s' f : edit_one e p s = Some (s', f) -> s_fc s' = opt (p_fc p) (s_fc s).
Proof.
  intros H. edit_steps H. destruct p0 as [[[[[a b] c] d] g] h].
  repeat match type of H with
  | match ?x with Some _ => _ | None => None end = Some _ => let E := fresh "E" in destruct x eqn:E; [|discriminate H]
  end. cbv zeta in H.
  match type of H with (if ?c then _ else _) = _ => destruct c; [discriminate H|] end.
  match type of H with (let '(_, _) := ?x in _) = _ => destruct x as [m l] end.
  repeat match type of H with
  | match ?x with Some _ => _ | None => None end = Some _ => let E := fresh "E" in destruct x eqn:E; [|discriminate H]
  end. apply some_inj in H. apply pair_equal_spec in H as [H _]. subst s'. reflexivity.
Qed.
Lemma edit_one_fc_ro e p s s' f : edit_one e p s = Some (s', f) -> p_fc p = Some true -> 0 < s_ro s'.
Proof.
  intros H F. revert H. intros H. edit_steps H. destruct p0 as [[[[[a b] c] d] g] h].
  repeat match type of H with
  | match ?x with Some _ => _ | None => None end = Some _ => let E := fresh "E" in destruct x eqn:E; [|discriminate H]
  end. cbv zeta in H. rewrite F in H.
  destruct (Z.leb_spec (opt (p_ro p) (s_ro s)) 0) as [K|K]; [discriminate H|].
  match type of H with (let '(_, _) := ?x in _) = _ => destruct x as [m l] end.
  repeat match type of H with
  | match ?x with Some _ => _ | None => None end = Some _ => let E := fresh "E" in destruct x eqn:E; [|discriminate H]
  end. apply some_inj in H. apply pair_equal_spec in H as [H _]. subst s'. exact K.
Qed.
Lemma F2_impl {A B} (P Q : A -> B -> Prop) L R : (forall a b, P a b -> Q a b) -> Forall2 P L R -> Forall2 Q L R.
Proof. intros H. induction 1; constructor; auto. Qed.
Lemma edit_all_inv e p : forall L R f, edit_all e p L = Some (R, f) ->
  Forall2 (fun s s' => exists g, edit_one e p s = Some (s', g) /\ (f = false -> g = false)) L R.
Proof.
  induction L as [|s L IH]; intros R f H; cbn [edit_all] in H; [apply some_inj in H; apply pair_equal_spec in H as [<- _]; constructor|].
  destruct (edit_one e p s) as [[s' a]|] eqn:E; [|discriminate]. destruct (edit_all e p L) as [[R0 b]|] eqn:E'; [|discriminate].
  apply some_inj in H. apply pair_equal_spec in H as [<- <-]. constructor.
  - exists a. split; [exact E|]. intros F. apply orb_false_iff in F. apply F.
  - eapply F2_impl; [|apply (IH _ _ eq_refl)]. cbv beta. intros x y (g & G1 & G2). exists g. split; [exact G1|]. intros F. apply orb_false_iff in F. apply G2, F.
Qed.
Lemma token_edit_inv e p t t' : token_edit e p t = Some t' ->
  exists f L s, edit_all e p (tk_banks t) = Some (L, f) /\ may_edit e f = true /\ head L = Some s /\ verify s = true /\
    t' = mkTok (opt (p_oracle p) (tk_oracle t)) (opt (p_fallback p) (tk_fallback t)) (opt (p_insurance p) (tk_insurance t)) L.
Proof.
  unfold token_edit. destruct (edit_all e p (tk_banks t)) as [[L f]|]; [|discriminate]. destruct (may_edit e f) eqn:M; [|discriminate]. cbn [andb].
  destruct L as [|s L]; [discriminate|]. destruct (verify s) eqn:V; [|discriminate]. intros H. apply some_inj in H. exists f, (s :: L), s. auto.
Qed.

(** ** verified settings *)
Lemma at_least_0 f : flt_lt f f_zero = false -> at_least 0 f.
Proof. destruct f as [|[|]|u]; cbn [flt_lt f_zero at_least]; try discriminate; auto. intros H. apply Z.ltb_ge in H. rewrite Z.mul_0_l. exact H. Qed.
Lemma at_least_1 f : flt_lt f f_one = false -> at_least 1 f.
Proof. unfold f_one. destruct f as [|[|]|u]; unfold flt_lt, at_least; try discriminate; auto. intros H. apply Z.ltb_ge in H. rewrite Z.mul_1_l. exact H. Qed.
Lemma at_most_1 f : flt_lt f_one f = false -> at_most 1 f.
Proof. unfold f_one. destruct f as [|[|]|u]; unfold flt_lt, at_most; try discriminate; auto. intros H. apply Z.ltb_ge in H. rewrite Z.mul_1_l. exact H. Qed.
Lemma above_0 f : flt_le f f_zero = false -> above 0 f.
Proof. destruct f as [|[|]|u]; cbn [flt_le f_zero above orb]; try discriminate; auto. intros H. apply Z.leb_gt in H. rewrite Z.mul_0_l. exact H. Qed.
Definition shift_ok (sh : shift) : Prop := 0 <= sh_start sh /\ sh_inv sh = shift_inv (sh_start sh) (sh_end sh).
Lemma verify_inv s : verify s = true -> 0 <= s_ro s -> shift_ok (s_shift s) -> ranges s /\ ordered s.
Proof.
  unfold verify. intros H RO [S1 S2]. repeat (apply andb_true_iff in H as [H ?]).
  repeat match goal with
  | X : negb (flt_lt _ f_zero) = true |- _ => apply negb_true_iff, at_least_0 in X
  | X : negb (flt_lt _ f_one) = true |- _ => apply negb_true_iff, at_least_1 in X
  | X : negb (flt_lt f_one _) = true |- _ => apply negb_true_iff, at_most_1 in X
  | X : negb (flt_le _ f_zero) = true |- _ => apply negb_true_iff, above_0 in X
  | X : (_ <=? _) = true |- _ => apply Z.leb_le in X
  end.
  split.
  - unfold ranges. split; [do 9 (split; [lia|]); lia|]. split; [lia|]. split; [lia|]. split; [do 12 (split; [assumption|]); assumption|].
    split; [exact S1|]. split; [exact S2|]. split; assumption.
  - unfold ordered, ordered_by. split; [assumption|]. split; [assumption|]. split.
    + intros D. rewrite D in *. match goal with X : negb true || _ = true |- _ => cbn [negb orb] in X; apply andb_true_iff in X as [X1 X2]; apply orb_true_iff in X1; apply Z.eqb_eq in X2 end.
      split; [|assumption]. destruct X1 as [X1|X1]; apply Z.eqb_eq in X1; auto.
    + intros D. rewrite D in *. match goal with X : negb true || (_ && _ && _) = true |- _ => cbn [negb orb] in X; apply andb_true_iff in X as [X1 X2]; apply andb_true_iff in X1 as [X0 X1]; apply Z.eqb_eq in X0, X2 end. auto.
Qed.
Lemma verify_fallback f s : verify (with_fallback f s) = verify s.
Proof. destruct s. reflexivity. Qed.
Lemma edit_fallback e p f s : edit_one e p (with_fallback f s) =
  option_map (fun r => (with_fallback (opt (p_fallback p) f) (fst r), snd r)) (edit_one e p s).
Proof.
  unfold edit_one, needs_admin, with_fallback. cbn [s_oracle s_conf s_stale s_fallback s_sp s_sp_interval s_sp_dgl s_sp_gl s_adj s_util0 s_rate0 s_util1 s_rate1 s_maxr s_orig s_loan s_maw s_iaw s_mlw s_ilw s_liqfee s_minvault s_nbl s_nbw s_bscale s_dscale s_ro s_name s_tier s_fc s_tcst s_tcsm s_flash s_curve s_tutil s_shift s_dlimit s_zero s_plat s_dis s_cfee s_fw].
  repeat first [reflexivity | match goal with
    | |- (match ?x with _ => _ end) = _ => destruct x
    | |- (if ?x then _ else _) = _ => destruct x
    end].
Qed.

(** ** invariants of histories *)
Lemma edit_one_keeps e p s s' f : edit_one e p s = Some (s', f) -> params_ok p ->
  (shift_ok (s_shift s) -> shift_ok (s_shift s')) /\ (0 <= s_ro s -> 0 <= s_ro s').
Proof.
  intros H (PR & PS & PE). edit_steps H. destruct p0 as [[[[[a b] c] d] g] h].
  repeat match type of H with
  | match ?x with Some _ => _ | None => None end = Some _ => let E := fresh "E" in destruct x eqn:E; [|discriminate H]
  end. cbv zeta in H.
  match type of H with (if ?c then _ else _) = _ => destruct c; [discriminate H|] end.
  match type of H with (let '(_, _) := ?x in _) = _ => destruct x as [m l] end.
  repeat match type of H with
  | match ?x with Some _ => _ | None => None end = Some _ => let E := fresh "E" in destruct x eqn:E; [|discriminate H]
  end. apply some_inj in H. apply pair_equal_spec in H as [H _]. subst s'. cbn [s_shift s_ro]. split.
  - unfold shift_ok. cbn [sh_start sh_end sh_inv]. intros [S1 S2].
    assert (B1 : 0 <= sh_start (if p_abort p then mkShift 0 0 0 0 0 else s_shift s)) by (destruct (p_abort p); [cbn [sh_start]; lia|exact S1]).
    split; [destruct (p_sh_start p); cbn [opt unsigned] in *; assumption|].
    destruct (p_sh_start p), (p_sh_end p); cbn [given orb opt]; try reflexivity. destruct (p_abort p); [reflexivity|exact S2].
  - intros R. destruct (p_ro p); cbn [opt unsigned] in *; assumption.
Qed.
Definition alike (a b : tset) : Prop := with_fallback 0 a = with_fallback 0 b.
Definition uniform (L : list tset) : Prop := forall a b, In a L -> In b L -> alike a b.
Lemma alike_ranges a b : alike a b -> ranges a -> ranges b.
Proof. unfold alike. intros E R. change (ranges (with_fallback 0 b)). rewrite <- E. exact R. Qed.
Lemma alike_ordered a b : alike a b -> ordered a -> ordered b.
Proof. unfold alike. intros E R. change (ordered (with_fallback 0 b)). rewrite <- E. exact R. Qed.
Lemma F2_in_r {A B} (P : A -> B -> Prop) L R y : Forall2 P L R -> In y R -> exists x, In x L /\ P x y.
Proof. induction 1 as [|a b L R H _ IH]; intros I; [destruct I|]. destruct I as [->|I]; [exists a; split; [left; reflexivity|exact H]|]. destruct (IH I) as (x & Ix & Px). exists x. split; [right; exact Ix|exact Px]. Qed.
Lemma edit_uniform e p L R f : uniform L -> edit_all e p L = Some (R, f) -> uniform R.
Proof.
  intros U H a' b' Ia Ib. apply edit_all_inv in H. apply (F2_in_r _ _ _ _ H) in Ia as (a & Ia & g & Ea & _). apply (F2_in_r _ _ _ _ H) in Ib as (b & Ib & k & Eb & _).
  specialize (U a b Ia Ib). unfold alike in *. pose proof (edit_fallback e p 0 a) as Xa. pose proof (edit_fallback e p 0 b) as Xb. rewrite Ea in Xa. rewrite Eb in Xb.
  rewrite U, Xb in Xa. cbn [option_map fst snd] in Xa. apply some_inj in Xa. apply pair_equal_spec in Xa as [Xa _].
  apply (f_equal (with_fallback 0)) in Xa. exact (eq_sym Xa).
Qed.
Definition fine (t : token) : Prop := tk_banks t <> [] /\ uniform (tk_banks t) /\ Forall ranges (tk_banks t).
Lemma fine_first t : fine t -> exists s L, tk_banks t = s :: L /\ ranges s.
Proof. intros (N & _ & R). destruct (tk_banks t) as [|s L]; [congruence|]. inversion R; subst. eauto. Qed.
Lemma uniform_forall (Q : tset -> Prop) L s : (forall a b, alike a b -> Q a -> Q b) -> uniform L -> In s L -> Q s -> Forall Q L.
Proof. intros HQ U I H. apply Forall_forall. intros x Ix. apply (HQ s x); [apply U; assumption|exact H]. Qed.
Lemma edit_fine e p t t' : params_ok p -> fine t -> token_edit e p t = Some t' -> fine t' /\ Forall ordered (tk_banks t').
Proof.
  intros PO (N & U & R) H. apply token_edit_inv in H as (f & L & s' & E & _ & Hd & V & ->). cbn [tk_banks].
  pose proof (edit_uniform _ _ _ _ _ U E) as U'. apply edit_all_inv in E. destruct L as [|s0 L]; [discriminate|]. cbn [head] in Hd. apply some_inj in Hd. subst s0.
  inversion E as [|s x L0 y (g & Eg & _) E' Es Ex]; subst. rewrite <- Es in R. inversion R as [|? ? Rs _]; subst.
  destruct (edit_one_keeps _ _ _ _ _ Eg PO) as [K1 K2]. destruct Rs as (_ & _ & R3 & _ & S1 & S2 & _).
  assert (V' : ranges s' /\ ordered s') by (apply verify_inv; [exact V|apply K2; lia|apply K1; split; assumption]).
  assert (I : In s' (s' :: L)) by (left; reflexivity).
  split; [split; [discriminate|split; [exact U'|]]|].
  - apply (uniform_forall ranges _ s' alike_ranges U' I), V'.
  - apply (uniform_forall ordered _ s' alike_ordered U' I), V'.
Qed.
Lemma max_one_range x : at_least 1 (max_one x).
Proof.
  unfold max_one. destruct (flt_lt f_one x) eqn:E; [|unfold f_one, at_least; lia].
  destruct x as [|[|]|u]; unfold f_one, flt_lt in E; try discriminate E; unfold at_least; [reflexivity|]. apply Z.ltb_lt in E. lia.
Qed.
Lemma ranges_sp sp s : ranges s -> ranges (set_sp sp s).
Proof. intros R. exact R. Qed.
Lemma ranges_done s : ranges s -> ranges (shift_done s).
Proof.
  intros (R1 & R2 & R3 & R4 & S1 & S2 & S3 & S4). unfold ranges, shift_done. cbn [s_conf s_util0 s_util1 s_rate0 s_rate1 s_maxr s_zero s_adj s_loan s_orig s_maw s_iaw s_mlw s_ilw s_liqfee s_plat s_nbl s_ro s_minvault s_bscale s_dscale s_tcst s_tcsm s_flash s_curve s_tutil s_cfee s_sp_dgl s_sp_gl s_shift sh_start sh_end sh_inv sh_asset sh_liab].
  split; [exact R1|]. split; [lia|]. split; [exact R3|]. split; [exact R4|]. split; [lia|]. split; [reflexivity|lia].
Qed.
Lemma ranges_rates first s x : ranges first -> ranges s -> ranges (set_rates (max_one x) (s_tutil first) (s_rate0 first) (s_rate1 first) (s_maxr first) s).
Proof.
  intros (F1 & _ & _ & F4 & _) (R1 & R2 & R3 & R4 & R5). unfold ranges, set_rates. cbn [s_conf s_util0 s_util1 s_rate0 s_rate1 s_maxr s_zero s_adj s_loan s_orig s_maw s_iaw s_mlw s_ilw s_liqfee s_plat s_nbl s_ro s_minvault s_bscale s_dscale s_tcst s_tcsm s_flash s_curve s_tutil s_cfee s_sp_dgl s_sp_gl s_shift].
  split; [clear F4 R2 R3 R4 R5; intuition lia|]. split; [exact R2|]. split; [exact R3|]. split; [|exact R5]. pose proof (max_one_range x) as MO. clear - F4 R4 MO. tauto.
Qed.
Lemma map_uniform (g : tset -> tset) L : (forall a b, alike a b -> alike (g a) (g b)) -> uniform L -> uniform (map g L).
Proof. intros G U a b Ia Ib. apply in_map_iff in Ia as (x & <- & Ix). apply in_map_iff in Ib as (y & <- & Iy). apply G, U; assumption. Qed.
Lemma alike_sp sp a b : alike a b -> alike (set_sp sp a) (set_sp sp b).
Proof. unfold alike. intros E. change (set_sp sp (with_fallback 0 a) = set_sp sp (with_fallback 0 b)). rewrite E. reflexivity. Qed.
Lemma alike_done a b : alike a b -> alike (shift_done a) (shift_done b).
Proof. unfold alike. intros E. change (shift_done (with_fallback 0 a) = shift_done (with_fallback 0 b)). rewrite E. reflexivity. Qed.
Lemma alike_rates c u r0 r1 m a b : alike a b -> alike (set_rates c u r0 r1 m a) (set_rates c u r0 r1 m b).
Proof. unfold alike. intros E. change (set_rates c u r0 r1 m (with_fallback 0 a) = set_rates c u r0 r1 m (with_fallback 0 b)). rewrite E. reflexivity. Qed.
(** what an update does to each bank *)
Definition updated (sp : Z) (done hourly : bool) (x : flt) (first s : tset) : tset :=
  let s := set_sp sp s in
  let s := if done then shift_done s else s in
  if hourly then set_rates (max_one x) (s_tutil first) (s_rate0 first) (s_rate1 first) (s_maxr first) s else s.
Lemma update_inv now sp hourly x t t' : update_settings now sp hourly x t = Some t' ->
  exists first L, tk_banks t = first :: L /\
    tk_banks t' = map (updated sp ((0 <? sh_inv (s_shift first)) && (sh_end (s_shift first) <=? now)) hourly x first) (tk_banks t).
Proof.
  unfold update_settings. destruct (tk_banks t) as [|first L]; [discriminate|]. cbv zeta. intros H. exists first, L. split; [reflexivity|].
  assert (X : Some (mkTok (tk_oracle t) (tk_fallback t) (tk_insurance t)
     (if hourly then map (set_rates (max_one x) (s_tutil first) (s_rate0 first) (s_rate1 first) (s_maxr first))
        (map (fun s : tset => if (0 <? sh_inv (s_shift first)) && (sh_end (s_shift first) <=? now) then shift_done (set_sp sp s) else set_sp sp s) (first :: L))
      else map (fun s : tset => if (0 <? sh_inv (s_shift first)) && (sh_end (s_shift first) <=? now) then shift_done (set_sp sp s) else set_sp sp s) (first :: L))) = Some t')
    by (destruct hourly; [destruct (s_curve first) as [| |[| |]]; try exact H; discriminate H|exact H]).
  clear H. apply some_inj in X. subst t'. cbn [tk_banks]. destruct hourly; [rewrite map_map|]; apply map_ext; intros s; reflexivity.
Qed.
Lemma updated_ranges sp done hourly x first s : ranges first -> ranges s -> ranges (updated sp done hourly x first s).
Proof.
  intros F R. unfold updated. cbv zeta. apply (ranges_sp sp) in R. set (s1 := set_sp sp s) in *. clearbody s1.
  assert (R1 : ranges (if done then shift_done s1 else s1)) by (destruct done; [apply ranges_done|]; exact R).
  destruct hourly; [apply ranges_rates; assumption|exact R1].
Qed.
Lemma updated_alike sp done hourly x first a b : alike a b -> alike (updated sp done hourly x first a) (updated sp done hourly x first b).
Proof.
  intros E. unfold updated. cbv zeta. apply (alike_sp sp) in E. set (a1 := set_sp sp a) in *. set (b1 := set_sp sp b) in *. clearbody a1 b1.
  assert (E1 : alike (if done then shift_done a1 else a1) (if done then shift_done b1 else b1)) by (destruct done; [apply alike_done|]; exact E).
  destruct hourly; [apply alike_rates|]; exact E1.
Qed.
Lemma update_fine now sp hourly x t t' : fine t -> update_settings now sp hourly x t = Some t' -> fine t'.
Proof.
  intros (N & U & R) H. apply update_inv in H as (first & L & E & X). unfold fine. rewrite X. split; [rewrite E; discriminate|]. split.
  - apply map_uniform; [intros a b; apply updated_alike|exact U].
  - assert (F : ranges first) by (rewrite E in R; inversion R; assumption). apply Forall_forall. intros y Iy. apply in_map_iff in Iy as (s & <- & Is).
    apply updated_ranges; [exact F|]. rewrite Forall_forall in R. apply R, Is.
Qed.
Lemma from_existing_alike s : from_existing s = with_fallback (s_oracle s) s.
Proof. reflexivity. Qed.
Lemma add_inv e k t t' : add_bank e k t = Some t' -> e_admin e = e_signer e /\ exists s, In s (tk_banks t) /\ tk_banks t' = tk_banks t ++ [from_existing s] /\ (length (tk_banks t') <= 6)%nat.
Proof.
  unfold add_bank. destruct (Z.eqb_spec (e_admin e) (e_signer e)); [|discriminate]. cbn [negb]. destruct (nth_error (tk_banks t) k) as [s|] eqn:E; [|discriminate].
  destruct (Nat.ltb_spec (length (tk_banks t)) 6) as [Q|Q]; [|discriminate]. intros H. apply some_inj in H. subst t'. cbn [tk_banks]. split; [assumption|]. exists s. split; [apply nth_error_In in E; exact E|].
  split; [reflexivity|]. rewrite app_length. cbn [length]. lia.
Qed.
Lemma add_fine e k t t' : fine t -> add_bank e k t = Some t' -> fine t'.
Proof.
  intros (N & U & R) H. apply add_inv in H as (_ & s & Is & X & _). unfold fine. rewrite X. split; [intros Y; apply app_eq_nil in Y as [_ Y]; discriminate|].
  assert (A : forall y, In y (tk_banks t ++ [from_existing s]) -> exists x, In x (tk_banks t) /\ alike x y).
  { intros y Iy. apply in_app_iff in Iy as [Iy|[<-|[]]]; [exists y; split; [exact Iy|reflexivity]|]. exists s. split; [exact Is|]. unfold alike. reflexivity. }
  split.
  - intros a b Ia Ib. apply A in Ia as (x & Ix & Ea). apply A in Ib as (y & Iy & Eb). unfold alike in *. rewrite <- Ea, <- Eb. apply U; assumption.
  - apply Forall_forall. intros y Iy. apply A in Iy as (x & Ix & Ea). apply (alike_ranges x y Ea). rewrite Forall_forall in R. apply R, Ix.
Qed.
Lemma list_fine l t : listing_ok l -> list_token l = Some t -> fine t /\ Forall ordered (tk_banks t).
Proof.
  assert (K : forall s o f i, verify s = true -> 0 <= s_ro s -> shift_ok (s_shift s) -> fine (mkTok o f i [s]) /\ Forall ordered [s]).
  { intros s o f i V RO S. destruct (verify_inv s V RO S) as [R Or]. split; [|constructor; [exact Or|constructor]]. unfold fine. cbn [tk_banks].
    split; [discriminate|]. split; [intros a b [<-|[]] [<-|[]]; reflexivity|constructor; [exact R|constructor]]. }
  destruct l as [e s i|e fa o f sp n ti]; cbn [list_token listing_ok]; intros RO H.
  - unfold register in H. match type of H with (if ?c then _ else _) = _ => destruct c eqn:C; [|discriminate H] end. apply some_inj in H. subst t.
    repeat (apply andb_true_iff in C as [C ?]). apply K; [assumption|exact RO|]. destruct (s_shift s) as [[| |] [| |] [| |] [| |] [| |]]; try discriminate. split; [cbn [sh_start]; lia|reflexivity].
  - unfold register_trustless in H. match type of H with (if ?c then _ else _) = _ => destruct c eqn:C; [|discriminate H] end. apply some_inj in H. subst t.
    repeat (apply andb_true_iff in C as [C ?]). apply K; [assumption|cbn [trustless s_ro]; lia|]. split; [cbn [trustless s_shift sh_start]; lia|reflexivity].
Qed.
Lemma step_fine ev t t' : event_ok ev -> fine t -> tstep t ev = Some t' -> fine t'.
Proof.
  destruct ev as [e p|e k|now sp h x]; cbn [tstep event_ok]; intros EO F H.
  - eapply edit_fine; eassumption.
  - eapply add_fine; eassumption.
  - eapply update_fine; eassumption.
Qed.
Lemma run_fine H : forall t t', Forall event_ok H -> fine t -> trun t H = Some t' -> fine t'.
Proof.
  induction H as [|ev H IH]; intros t t' EO F R; cbn [trun] in R; [apply some_inj in R; subst t'; exact F|].
  destruct (tstep t ev) as [t1|] eqn:E; [|discriminate]. inversion EO; subst. apply (IH t1 t'); [assumption|eapply step_fine; eassumption|exact R].
Qed.
Lemma after_fine l H t : listing_ok l -> Forall event_ok H -> token_after l H = Some t -> fine t.
Proof.
  unfold token_after. intros LO EO R. destruct (list_token l) as [t0|] eqn:E; [|discriminate]. eapply run_fine; [exact EO|eapply list_fine; eassumption|exact R].
Qed.
(** ordered weights, when shifts lead to ordered weights *)
Lemma step_ordered ev t t' : event_ok ev -> fine t -> Forall targets_ordered (tk_banks t) -> Forall ordered (tk_banks t) -> tstep t ev = Some t' -> Forall ordered (tk_banks t').
Proof.
  destruct ev as [e p|e k|now sp h x]; cbn [tstep event_ok]; intros EO F T O H.
  - eapply edit_fine; eassumption.
  - apply add_inv in H as (_ & s & Is & X & _). rewrite X. apply Forall_app. split; [exact O|]. constructor; [|constructor]. rewrite Forall_forall in O. exact (O s Is).
  - destruct F as (_ & U & _). apply update_inv in H as (first & L & E & X). rewrite X. apply Forall_forall. intros y Iy. apply in_map_iff in Iy as (s & <- & Is).
    rewrite Forall_forall in O, T. specialize (O s Is). specialize (T s Is). assert (A : alike first s) by (apply U; [rewrite E; left; reflexivity|exact Is]).
    assert (Sh : s_shift first = s_shift s) by (change (s_shift (with_fallback 0 first) = s_shift (with_fallback 0 s)); unfold alike in A; rewrite A; reflexivity).
    unfold updated. cbv zeta. set (first' := first) in *. assert (G : ordered (if (0 <? sh_inv (s_shift first')) && (sh_end (s_shift first') <=? now) then shift_done (set_sp sp s) else set_sp sp s)).
    { destruct (Z.ltb_spec 0 (sh_inv (s_shift first'))) as [I|I]; [|exact O]. destruct (sh_end (s_shift first') <=? now); [|exact O]. cbn [andb]. rewrite Sh in I.
      assert (T' : ordered_by (sh_asset (s_shift s)) (sh_liab (s_shift s)) s) by (apply T; lia). exact T'. }
    set (s1 := if _ && _ then _ else _) in *. clearbody s1. destruct h; exact G.
Qed.
Lemma run_ordered H : forall t t', Forall event_ok H -> fine t -> Forall ordered (tk_banks t) ->
  along (fun t => Forall targets_ordered (tk_banks t)) t H -> trun t H = Some t' -> Forall ordered (tk_banks t') /\ Forall targets_ordered (tk_banks t').
Proof.
  induction H as [|ev H IH]; intros t t' EO F O A R; cbn [trun along] in R, A; destruct A as [A0 A]; [apply some_inj in R; subst t'; split; assumption|].
  destruct (tstep t ev) as [t1|] eqn:E; [|discriminate]. inversion EO; subst. apply (IH t1 t'); [assumption|eapply step_fine; eassumption|eapply step_ordered; eassumption|exact A|exact R].
Qed.
