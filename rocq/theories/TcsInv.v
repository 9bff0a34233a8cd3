(** Histories of conditional swaps. *)
From Coq Require Import List ZArith Lia Bool.
From Verif Require Import Health HealthSpec LiqState OrderTree Keys PerpTypes Interest Bank BankFacts BankSystem Fixed Tcs TcsSpec TcsFacts.
From Verif Require AccountSlotsFacts.
Import ListNotations.
Open Scope Z_scope.

Lemma nth_upd {A} (l : list A) i j x : nth_error (upd l i x) j =
  if Nat.eqb i j then (match nth_error l j with Some _ => Some x | None => None end) else nth_error l j.
Proof.
  revert i j. induction l as [|y l IH]; intros i j.
  - replace (upd [] i x) with (@nil A) by (destruct i; reflexivity). destruct j; destruct (Nat.eqb _ _); reflexivity.
  - destruct i, j; cbn; try reflexivity. apply IH.
Qed.

Definition ev_key (e : sevent) : Z * Z :=
  match e with ECreate k id _ _ | ETrigger k id _ _ | EStart k id _ | EClose k id => (k, id) end.

Lemma tb_app k id l l' : total_bought k id (l ++ l') = total_bought k id l + total_bought k id l'.
Proof. induction l as [|e l IH]; [reflexivity|]. cbn. unfold total_bought in *. rewrite IH. lia. Qed.
Lemma ts_app k id l l' : total_sold k id (l ++ l') = total_sold k id l + total_sold k id l'.
Proof. induction l as [|e l IH]; [reflexivity|]. cbn. unfold total_sold in *. rewrite IH. lia. Qed.
Lemma tb_none k id l : (forall e, In e l -> ev_key e <> (k, id)) -> total_bought k id l = 0 /\ total_sold k id l = 0.
Proof.
  induction l as [|e l IH]; intros H; [auto|]. destruct IH as [I1 I2]; [intros; apply H; right; assumption|].
  assert (He: ev_key e <> (k, id)) by (apply H; left; reflexivity).
  unfold total_bought, total_sold in *. cbn. rewrite I1, I2.
  unfold bought_in, sold_in. destruct e; cbn in He; auto.
  - destruct (Z.eqb_spec acct k), (Z.eqb_spec id0 id); cbn; auto. subst. contradiction.
  - destruct (Z.eqb_spec acct k), (Z.eqb_spec id0 id); cbn; auto. subst. contradiction.
Qed.

Fixpoint quiet (log : list sevent) : Prop :=
  match log with
  | [] => True
  | e :: r => match e with EClose k id => Forall (fun x => ~ touches k id x) r | _ => True end /\ quiet r
  end.
Lemma quiet_app l l' : quiet l -> quiet l' -> (forall k id x, In (EClose k id) l -> In x l' -> ~ touches k id x) -> quiet (l ++ l').
Proof.
  induction l as [|e l IH]; intros H1 H2 H3; [exact H2|]. cbn [app quiet] in *. destruct H1 as [H1 H1'].
  split; [|apply IH; auto; intros; eapply H3; [right|]; eassumption].
  destruct e; auto. apply Forall_app. split; [exact H1|]. apply Forall_forall. intros x Hx. eapply H3; [left; reflexivity|exact Hx].
Qed.
Lemma quiet_split l : forall e1 k id e2, quiet l -> l = e1 ++ EClose k id :: e2 -> Forall (fun x => ~ touches k id x) e2.
Proof.
  induction l as [|e l IH]; intros e1 k id e2 H E; [destruct e1; discriminate|].
  destruct e1 as [|e' e1]; cbn [app] in E; injection E as -> E.
  - subst. apply H.
  - eapply IH; [apply H|exact E].
Qed.

Definition slot_ok (k : Z) (log : list sevent) (c : tcs) : Prop :=
  In (ECreate k (k_id c) (k_max_buy c) (k_max_sell c)) log /\
  total_bought k (k_id c) log = k_bought c /\ total_sold k (k_id c) log = k_sold c /\
  k_bought c <= k_max_buy c /\ k_sold c <= k_max_sell c /\ ~ In (EClose k (k_id c)) log.

Record sinv (v : Z -> option (list tcs * Z)) (log : list sevent) (n : Z) : Prop := mkSinv {
  si_next : forall k l m, v k = Some (l, m) -> 0 <= m <= n /\ forall e, In e log -> fst (ev_key e) = k -> snd (ev_key e) < m;
  si_none : forall k, v k = None -> forall e, In e log -> fst (ev_key e) <> k;
  si_slot : forall k l m i c, v k = Some (l, m) -> nth_error l i = Some c -> k_on c = true -> slot_ok k log c;
  si_uniq : forall k l m i j c d, v k = Some (l, m) -> nth_error l i = Some c -> nth_error l j = Some d ->
    k_on c = true -> k_on d = true -> k_id c = k_id d -> i = j;
  si_tot : forall k id mb ms, In (ECreate k id mb ms) log -> total_bought k id log <= mb /\ total_sold k id log <= ms;
  si_cre : forall k id mb ms mb' ms', In (ECreate k id mb ms) log -> In (ECreate k id mb' ms') log -> mb = mb' /\ ms = ms';
  si_quiet : quiet log }.

Lemma slot_ok_app k log ev c : slot_ok k log c -> (forall e, In e ev -> ev_key e <> (k, k_id c)) -> slot_ok k (log ++ ev) c.
Proof.
  intros (H1 & H2 & H3 & H4 & H5 & H6) He. destruct (tb_none k (k_id c) ev He) as [T1 T2].
  unfold slot_ok. rewrite tb_app, ts_app, T1, T2. split; [apply in_or_app; auto|]. split; [lia|]. split; [lia|]. split; [lia|]. split; [lia|].
  intros Hin. apply in_app_or in Hin as [Hin|Hin]; [auto|]. apply (He _ Hin). reflexivity.
Qed.

Lemma progress_key k c c' ev e : progress k c c' ev -> In e ev -> ev_key e = (k, k_id c).
Proof. intros H. destruct H; cbn; intuition; subst; reflexivity. Qed.
Lemma progress_totals k c c' ev : progress k c c' ev ->
  let b := total_bought k (k_id c) ev in let s := total_sold k (k_id c) ev in
  0 <= b /\ 0 <= s /\ (k_bought c <= k_max_buy c -> k_bought c + b <= k_max_buy c) /\ k_sold c + s <= k_max_sell c \/
  (b = 0 /\ s = 0).
Proof.
  intros H. destruct H; cbn; unfold bought_in, sold_in; rewrite ?Z.eqb_refl; cbn; [right|left|left|left]; lia.
Qed.
Lemma progress_slot k c c' ev log : progress k c c' ev -> slot_ok k log c -> k_on c' = true ->
  slot_ok k (log ++ ev) c' /\ k_id c' = k_id c.
Proof.
  intros H (H1 & H2 & H3 & H4 & H5 & H6) Hon.
  destruct H; cbn [tcs_default k_on] in Hon; try discriminate; split; try reflexivity;
    unfold slot_ok, set_progress; cbn [k_id k_max_buy k_max_sell k_bought k_sold]; rewrite tb_app, ts_app, H2, H3;
    cbn; unfold bought_in, sold_in; rewrite ?Z.eqb_refl; cbn;
    (split; [apply in_or_app; auto|]); (split; [lia|]); (split; [lia|]); (split; [lia|]); (split; [lia|]);
    intros Hin; apply in_app_or in Hin as [Hin|[Hin|[]]]; [auto|discriminate|auto|discriminate].
Qed.
Lemma progress_quiet k c c' ev : progress k c c' ev -> quiet ev.
Proof. intros H. destruct H; cbn; auto. Qed.

Lemma sinv_step v v' log n ev : sinv v log n -> 0 <= n < 2 ^ 64 - 1 -> vstep v v' ev -> sinv v' (log ++ ev) (n + 1).
Proof.
  intros I Hn [-> Hv|k ns -> Hk Ho|k l m i c0 c Hk Hi Hoff Hon Hid Hb0 Hs0 Hmb Hms Ho ->|k l m i c c' Hk Hi Hon Hp Ho].
  - rewrite app_nil_r. destruct I. constructor; auto; intros k; rewrite Hv; eauto.
    intros. specialize (si_next0 _ _ _ H). intuition lia.
  - rewrite app_nil_r. destruct I. constructor; auto.
    + intros k' l m. rewrite Ho. destruct (Z.eqb_spec k' k) as [->|]; intros E.
      * injection E as <- <-. split; [lia|intros e He Hf; exfalso; exact (si_none0 _ Hk _ He Hf)].
      * specialize (si_next0 _ _ _ E). intuition lia.
    + intros k'. rewrite Ho. destruct (k' =? k); [discriminate|auto].
    + intros k' l m i c. rewrite Ho. destruct (k' =? k); intros E; [|eauto].
      injection E as <- <-. intros Hi Hon. apply nth_error_In, repeat_spec in Hi. subst c. discriminate.
    + intros k' l m i j c d. rewrite Ho. destruct (k' =? k); intros E; [|eauto].
      injection E as <- <-. intros Hi _ Hon. apply nth_error_In, repeat_spec in Hi. subst c. discriminate.
  - destruct I. destruct (si_next0 _ _ _ Hk) as [Hm Hlt].
    assert (Hfresh: forall e, In e log -> ev_key e <> (k, m)).
    { intros e He E. assert (snd (ev_key e) < m) by (apply Hlt; [exact He|rewrite E; reflexivity]). rewrite E in *. cbn in *. lia. }
    assert (Emod: (m + 1) mod 2 ^ 64 = m + 1) by (apply Z.mod_small; lia).
    rewrite Emod in Ho. clear Emod.
    constructor.
    + intros k' l' m'. rewrite Ho. destruct (Z.eqb_spec k' k) as [->|]; intros E.
      * injection E as <- <-. split; [lia|]. intros e He Hf. apply in_app_or in He as [He|[<-|[]]]; [|cbn; lia].
        specialize (Hlt e He Hf). lia.
      * destruct (si_next0 _ _ _ E) as [Hm' Hlt']. split; [lia|]. intros e He Hf.
        apply in_app_or in He as [He|[<-|[]]]; [auto|]. cbn in Hf. congruence.
    + intros k'. rewrite Ho. destruct (Z.eqb_spec k' k); [discriminate|]. intros E e He.
      apply in_app_or in He as [He|[<-|[]]]; [auto|]. cbn. auto.
    + intros k' l' m' j d. rewrite Ho. destruct (Z.eqb_spec k' k) as [->|]; intros E.
      * injection E as <- <-. rewrite nth_upd. destruct (Nat.eqb_spec i j) as [->|].
        -- rewrite Hi. intros E Hd. injection E as <-.
           destruct (tb_none k m log Hfresh) as [T1 T2].
           unfold slot_ok. rewrite Hid, tb_app, ts_app, T1, T2, Hb0, Hs0. cbn.
           split; [apply in_or_app; right; left; reflexivity|]. split; [lia|]. split; [lia|]. split; [lia|]. split; [lia|].
           intros Hin. apply in_app_or in Hin as [Hin|[Hin|[]]]; [|discriminate]. exact (Hfresh _ Hin eq_refl).
        -- intros Hj Hd. apply slot_ok_app; [eauto|]. intros e [<-|[]] E. cbn in E. injection E as E.
           assert (Sd: slot_ok k log d) by eauto. destruct Sd as [Sd _]. rewrite <- E in Sd. exact (Hfresh _ Sd eq_refl).
      * intros Hj Hd. apply slot_ok_app; [eauto|]. intros e [<-|[]] E'. cbn in E'. congruence.
    + intros k' l' m' i1 i2 c1 c2. rewrite Ho. destruct (Z.eqb_spec k' k) as [->|]; intros E; [|eauto].
      injection E as <- <-. rewrite !nth_upd.
      assert (Hne: forall j d, nth_error l j = Some d -> k_on d = true -> k_id d <> m).
      { intros j d Hj Hd E. assert (Sd: slot_ok k log d) by eauto. destruct Sd as [Sd _]. rewrite E in Sd. exact (Hfresh _ Sd eq_refl). }
      destruct (Nat.eqb_spec i i1) as [<-|], (Nat.eqb_spec i i2) as [<-|]; try rewrite Hi; intros E1 E2 On1 On2 Eid.
      * reflexivity.
      * injection E1 as <-. exfalso. eapply Hne; [exact E2|exact On2|congruence].
      * injection E2 as <-. exfalso. eapply Hne; [exact E1|exact On1|congruence].
      * eapply si_uniq0; eassumption.
    + intros k' id' mb ms Hin. rewrite tb_app, ts_app. cbn. apply in_app_or in Hin as [Hin|[Hin|[]]].
      * specialize (si_tot0 _ _ _ _ Hin). lia.
      * injection Hin as -> -> <- <-. destruct (tb_none k' id' log Hfresh) as [T1 T2]. lia.
    + intros k' id' mb ms mb' ms' H1 H2. apply in_app_or in H1 as [H1|[H1|[]]], H2 as [H2|[H2|[]]] || (apply in_app_or in H2 as [H2|[H2|[]]]).
      * eauto.
      * injection H2 as -> -> <- <-. exfalso. exact (Hfresh _ H1 eq_refl).
      * injection H1 as -> -> <- <-. exfalso. exact (Hfresh _ H2 eq_refl).
      * injection H1 as -> -> <- <-. injection H2 as <- <-. auto.
    + apply quiet_app; [assumption|cbn; auto|]. intros k' id' x _ [<-|[]]. cbn. auto.
  - destruct I. destruct (si_next0 _ _ _ Hk) as [Hm Hlt].
    assert (Sc: slot_ok k log c) by eauto.
    pose proof (progress_key k c c' ev) as Hkey.
    assert (Hidm: k_id c < m).
    { destruct Sc as [Sc _]. apply (Hlt _ Sc eq_refl). }
    constructor.
    + intros k' l' m'. rewrite Ho. destruct (Z.eqb_spec k' k) as [->|]; intros E.
      * injection E as <- <-. split; [lia|]. intros e He Hf. apply in_app_or in He as [He|He]; [auto|].
        rewrite (Hkey e Hp He). cbn. exact Hidm.
      * destruct (si_next0 _ _ _ E) as [Hm' Hlt']. split; [lia|]. intros e He Hf.
        apply in_app_or in He as [He|He]; [auto|]. rewrite (Hkey e Hp He) in Hf. cbn in Hf. congruence.
    + intros k'. rewrite Ho. destruct (Z.eqb_spec k' k); [discriminate|]. intros E e He.
      apply in_app_or in He as [He|He]; [auto|]. rewrite (Hkey e Hp He). cbn. auto.
    + intros k' l' m' j d. rewrite Ho. destruct (Z.eqb_spec k' k) as [->|]; intros E.
      * injection E as <- <-. rewrite nth_upd. destruct (Nat.eqb_spec i j) as [->|].
        -- rewrite Hi. intros E Hd. injection E as <-. eapply progress_slot; eassumption.
        -- intros Hj Hd. apply slot_ok_app; [eauto|]. intros e He E. rewrite (Hkey e Hp He) in E. injection E as E.
           match goal with N : i <> j |- _ => apply N end. eapply si_uniq0; eassumption.
      * intros Hj Hd. apply slot_ok_app; [eauto|]. intros e He E'. rewrite (Hkey e Hp He) in E'. congruence.
    + intros k' l' m' i1 i2 c1 c2. rewrite Ho. destruct (Z.eqb_spec k' k) as [->|]; intros E; [|eauto].
      injection E as <- <-. rewrite !nth_upd.
      assert (Hc': k_on c' = true -> k_id c' = k_id c) by (intros; eapply progress_slot; eassumption).
      destruct (Nat.eqb_spec i i1) as [<-|], (Nat.eqb_spec i i2) as [<-|]; try rewrite Hi; intros E1 E2 On1 On2 Eid.
      * reflexivity.
      * injection E1 as <-. rewrite (Hc' On1) in Eid. exfalso. match goal with N : i <> i2 |- _ => apply N end. eapply si_uniq0; eassumption.
      * injection E2 as <-. rewrite (Hc' On2) in Eid. exfalso. match goal with N : i <> i1 |- _ => apply N end. symmetry. eapply si_uniq0; eassumption.
      * eapply si_uniq0; eassumption.
    + intros k' id' mb ms Hin. rewrite tb_app, ts_app.
      apply in_app_or in Hin as [Hin|Hin]; [|exfalso; destruct Hp; cbn in Hin; intuition discriminate].
      destruct (Z.eq_dec k' k) as [->|Hk']; [destruct (Z.eq_dec id' (k_id c)) as [->|Hid']|].
      * destruct Sc as (S1 & S2 & S3 & S4 & S5 & _). destruct (si_cre0 _ _ _ _ _ _ Hin S1) as [-> ->].
        pose proof (progress_totals k c c' ev Hp) as T. cbv zeta in T. lia.
      * destruct (tb_none k id' ev) as [T1 T2]; [intros e He E; rewrite (Hkey e Hp He) in E; congruence|].
        specialize (si_tot0 _ _ _ _ Hin). lia.
      * destruct (tb_none k' id' ev) as [T1 T2]; [intros e He E; rewrite (Hkey e Hp He) in E; congruence|].
        specialize (si_tot0 _ _ _ _ Hin). lia.
    + intros k' id' mb ms mb' ms' H1 H2.
      assert (Hno: forall a b x y, ~ In (ECreate a b x y) ev) by (intros a b x y Hin; destruct Hp; cbn in Hin; intuition discriminate).
      apply in_app_or in H1 as [H1|H1]; [|exfalso; exact (Hno _ _ _ _ H1)].
      apply in_app_or in H2 as [H2|H2]; [|exfalso; exact (Hno _ _ _ _ H2)]. eauto.
    + apply quiet_app; [assumption|eapply progress_quiet; eassumption|].
      intros k' id' x Hcl Hx Ht. pose proof (Hkey x Hp Hx) as Kx.
      assert (E: ev_key x = (k', id')) by (destruct x; cbn in Ht; try contradiction; destruct Ht as [-> ->]; reflexivity).
      rewrite Kx in E. injection E as <- <-. destruct Sc as (_ & _ & _ & _ & _ & Sno). exact (Sno Hcl).
Qed.

Lemma sinv_start w : no_accounts w -> sinv (view w) [] 0.
Proof.
  intros H. assert (Hv: forall k, view w k = None) by (intros k; unfold view; rewrite H; reflexivity).
  constructor; try (intros k; rewrite Hv; discriminate); try (intros; contradiction). exact I.
Qed.
Lemma sinv_more v log n n' : sinv v log n -> n <= n' -> sinv v log n'.
Proof. intros [] Hn. constructor; auto. intros k l m E. destruct (si_next0 _ _ _ E). split; [lia|auto]. Qed.
Lemma sinv_run ops : forall w log n w' ev, sinv (view w) log n -> 0 <= n -> n + Z.of_nat (length ops) < 2 ^ 64 ->
  srun w ops = (w', ev) -> sinv (view w') (log ++ ev) (n + Z.of_nat (length ops)).
Proof.
  induction ops as [|o ops IH]; intros w log n w' ev I Hn Hl H.
  - cbn [srun] in H. apply pair_equal_spec in H as [<- <-]. rewrite app_nil_r. eapply sinv_more; [exact I|cbn; lia].
  - cbn [length] in *. rewrite Nat2Z.inj_succ in *. cbn [srun] in H. destruct (sstep w o) as [[w1 ev1]|] eqn:E.
    + destruct (srun w1 ops) as [w2 ev2] eqn:E2. apply pair_equal_spec in H as [<- <-]. rewrite app_assoc.
      apply (sinv_more _ _ (n + 1 + Z.of_nat (length ops))); [|lia].
      refine (IH _ _ _ _ _ _ _ _ E2); [|lia|lia].
      apply (sinv_step (view w)); [exact I|lia|]. eapply sstep_vstep; exact E.
    + apply (sinv_more _ _ (n + Z.of_nat (length ops))); [|lia]. refine (IH _ _ _ _ _ I _ _ H); lia.
Qed.
