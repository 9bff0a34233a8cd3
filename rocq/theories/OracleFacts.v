(** Lemmas about oracle prices and retrievers. *)
From Coq Require Import List ZArith Lia Bool Arith.
From Verif Require Import Fixed Interest Bank Oracle OracleSpec.
Import ListNotations.
Open Scope Z_scope.

Lemma gtrue b u : guard b = Some u -> b = true.
Proof. destruct b; [reflexivity|discriminate]. Qed.
Ltac opt H := repeat match type of H with
  | (match guard ?b with Some _ => _ | None => None end) = Some _ =>
      let G := fresh "G" in destruct (guard b) eqn:G; [apply gtrue in G|discriminate H]
  | (match ?e with Some _ => _ | None => None end) = Some _ =>
      let O := fresh "O" in destruct e eqn:O; [|discriminate H]
  | (let (_, _) := ?e in _) = Some _ => destruct e
  end.

Lemma check_confidence_spec s c ok : check_confidence s c = Some ok -> (ok = true <-> certain s c).
Proof.
  unfold check_confidence, certain. intros H. opt H. injection H as <-. unfold chk_fx in O. destruct (_ && _) in O; [|discriminate].
  injection O as <-. unfold fmul. pose proof fone_pos. rewrite negb_true_iff, Z.ltb_ge.
  pose proof (Z.mul_div_le (cf_conf c * os_price s) fone ltac:(lia)).
  pose proof (Z.mul_succ_div_gt (cf_conf c * os_price s) fone ltac:(lia)). split; intros; nia.
Qed.
Lemma check_staleness_spec s c slot ts ok : check_staleness s c slot ts = Some ok -> (ok = true -> fresh s c ts slot) /\
  (0 <= slot <= U64_MAX -> fresh s c ts slot -> ok = true).
Proof.
  unfold check_staleness, fresh. destruct (Z.ltb_spec (cf_stale c) 0) as [h|h].
  - intros H. injection H as <-. auto.
  - destruct (Z.ltb_spec (Z.min U64_MAX (os_slot s + cf_stale c)) slot) as [h1|h1].
    + intros H. injection H as <-. split; [discriminate|]. intros Hs [?|[F _]]; lia.
    + destruct (os_time s) as [t|].
      * intros H. opt H. injection H as <-. rewrite !andb_true_iff in G. destruct G as [[G1 G2] G3]. unfold in_u64b in *.
        rewrite andb_true_iff, !Z.leb_le in G1, G2, G3. rewrite negb_true_iff, Z.ltb_ge. split.
        -- intros Ht. right. split; [lia|]. intros t' E. injection E as <-. lia.
        -- intros _ [?|[_ F]]; [lia|]. specialize (F t eq_refl). lia.
      * intros H. injection H as <-. split; [|auto]. intros _. right. split; [lia|]. discriminate.
Qed.
Lemma check_state_spec s c now ok : check_state s c now = Some ok -> (ok = true -> acceptable s c now) /\
  ((forall ts slot, now = Some (ts, slot) -> 0 <= slot <= U64_MAX) -> acceptable s c now -> ok = true).
Proof.
  unfold check_state, acceptable. intros H. destruct now as [[ts slot]|].
  - destruct (check_staleness s c slot ts) as [f|] eqn:Ef; [|discriminate]. apply check_staleness_spec in Ef as [F1 F2].
    destruct f.
    + apply check_confidence_spec in H as [C1 C2]. split.
      * intros E. split; [intros ts' slot' Eq; injection Eq as <- <-; auto|auto].
      * intros _ [_ C]. auto.
    + injection H as <-. split; [discriminate|]. intros Hs [F _]. apply F2; [apply (Hs ts slot eq_refl)|apply F; reflexivity].
  - apply check_confidence_spec in H as [C1 C2]. split; [intros E; split; [discriminate|auto]|intros _ [_ C]; auto].
Qed.

(** more accounts never change a reading *)
Definition sub (x y : option ainfo) : Prop := forall a, x = Some a -> exists a', y = Some a' /\ a_data a' = a_data a /\ a_key a' = a_key a.
Record covers (i j : oinfos) : Prop := mkCov {
  cv_oracle : a_key (oi_oracle j) = a_key (oi_oracle i) /\ a_data (oi_oracle j) = a_data (oi_oracle i);
  cv_fb : sub (oi_fallback i) (oi_fallback j);
  cv_usdc : sub (oi_usdc i) (oi_usdc j);
  cv_sol : sub (oi_sol i) (oi_sol j) }.
Lemma quote_state_covers i j a b s : covers i j -> quote_state i a b = Some s -> quote_state j a b = Some s.
Proof.
  intros [_ _ U S]. unfold quote_state. destruct (_ =? USDC_MINT).
  - destruct (oi_usdc i) as [f|]; [|discriminate]. destruct (U f eq_refl) as (f' & -> & -> & _). auto.
  - destruct (_ =? SOL_MINT); [|discriminate]. destruct (oi_sol i) as [f|]; [|discriminate]. destruct (S f eq_refl) as (f' & -> & -> & _). auto.
Qed.
Lemma oracle_state_covers i j base fb s : covers i j -> oracle_state i base fb = Some s -> oracle_state j base fb = Some s.
Proof.
  intros C. unfold oracle_state.
  assert (A: forall acc acc', a_data acc' = a_data acc ->
    (match a_data acc with COracle o => match o with
      | OdStub price dev slot => Some (mkOs price (if dev =? 0 then - 2 ^ 127 else dev) (if slot =? 0 then U64_MAX else slot) None)
      | OdPyth _ _ _ _ => pyth_state (COracle o) base
      | OdPythV2 full q expo time => let* _ := guard full in scaled q expo base (Some (time mod 2 ^ 64))
      | OdSwitchboard v slot =>
          let* (ui_price, ui_dev) := v in let* d := chk_i8 (QUOTE_DECIMALS - base) in let* adj := power_of_ten d in
          let* price := chk_fx (fmul ui_price adj) in let* dev := chk_fx (fmul ui_dev adj) in
          let* _ := guard (0 <=? price) in Some (mkOs price dev slot None)
      | OdPool sqrt inv a b =>
          let* p := clmm_price sqrt inv a b in let* q := quote_state i a b in
          let* price := chk_fx (fmul p (os_price q)) in Some (mkOs price (os_dev q) (os_slot q) None)
      end | _ => None end) = Some s ->
    (match a_data acc' with COracle o => match o with
      | OdStub price dev slot => Some (mkOs price (if dev =? 0 then - 2 ^ 127 else dev) (if slot =? 0 then U64_MAX else slot) None)
      | OdPyth _ _ _ _ => pyth_state (COracle o) base
      | OdPythV2 full q expo time => let* _ := guard full in scaled q expo base (Some (time mod 2 ^ 64))
      | OdSwitchboard v slot =>
          let* (ui_price, ui_dev) := v in let* d := chk_i8 (QUOTE_DECIMALS - base) in let* adj := power_of_ten d in
          let* price := chk_fx (fmul ui_price adj) in let* dev := chk_fx (fmul ui_dev adj) in
          let* _ := guard (0 <=? price) in Some (mkOs price dev slot None)
      | OdPool sqrt inv a b =>
          let* p := clmm_price sqrt inv a b in let* q := quote_state j a b in
          let* price := chk_fx (fmul p (os_price q)) in Some (mkOs price (os_dev q) (os_slot q) None)
      end | _ => None end) = Some s).
  { intros acc acc' ->. destruct (a_data acc) as [| | |o|]; try discriminate. destruct o; try (intros H; exact H).
    destruct (clmm_price _ _ _ _); [|discriminate]. destruct (quote_state i mint_a mint_b) as [q|] eqn:Eq; [|discriminate].
    rewrite (quote_state_covers _ _ _ _ _ C Eq). auto. }
  destruct fb.
  - destruct (oi_fallback i) as [f|] eqn:Ef; [|discriminate]. destruct (cv_fb _ _ C f Ef) as (f' & E' & D & _). rewrite E'. apply A. exact D.
  - apply A. apply C.
Qed.
Lemma bank_price_covers b i j now p : covers i j -> bank_price b i now = Some p -> bank_price b j now = Some p.
Proof.
  intros C H. unfold bank_price in *. destruct (cv_oracle _ _ C) as [-> _]. opt H. cbn [guard].
  rewrite (oracle_state_covers _ _ _ _ _ C O), O0. destruct b0; [exact H|]. opt H.
  destruct (cv_fb _ _ C _ O1) as (f' & -> & D & ->). rewrite G0. cbn [guard].
  rewrite (oracle_state_covers _ _ _ _ _ C O2), O3, G1. cbn [guard]. exact H.
Qed.
Lemma perp_price_covers m i j now p : covers i j -> perp_price m i now = Some p -> perp_price m j now = Some p.
Proof.
  intros C H. unfold perp_price in *. destruct (cv_oracle _ _ C) as [-> _]. opt H. cbn [guard].
  rewrite (oracle_state_covers _ _ _ _ _ C O), O0, G0. cbn [guard]. exact H.
Qed.

Lemma find_key_ledger L ais k : from_ledger L ais -> sub (find_key ais k) (Some (at_key L k)).
Proof.
  intros F a E. apply find_some in E as [E1 E2]. apply Z.eqb_eq in E2. exists (at_key L k). split; [reflexivity|].
  unfold from_ledger in F. rewrite Forall_forall in F. rewrite (F a E1), E2. split; reflexivity.
Qed.
Lemma from_ledger_skipn L n ais : from_ledger L ais -> from_ledger L (skipn n ais).
Proof. unfold from_ledger. rewrite !Forall_forall. intros F a H. apply F. rewrite <- (firstn_skipn n ais). apply in_or_app. right. exact H. Qed.
Lemma nth_ledger L ais i a : from_ledger L ais -> nth_error ais i = Some a -> a_data a = L (a_key a).
Proof. unfold from_ledger. rewrite Forall_forall. intros F H. apply F. eapply nth_error_In; exact H. Qed.
Lemma price_ledger L b o fb u so now p : a_data o = L (a_key o) ->
  sub fb (Some (at_key L (bk_fallback b))) -> sub u (Some (at_key L USDC_FEED)) -> sub so (Some (at_key L SOL_FEED)) ->
  bank_price b (mkOi o fb u so) now = Some p -> ledger_price L b now = Some p.
Proof.
  intros Ho Hf Hu Hs H. assert (Ek: bk_oracle b = a_key o).
  { unfold bank_price in H. opt H. apply Z.eqb_eq in G. exact G. }
  eapply bank_price_covers; [|exact H]. constructor; cbn; auto. rewrite Ek. auto.
Qed.

Lemma scan_at_ledger L r i b p : from_ledger L (sr_ais r) -> scan_at r i = Some (b, p) ->
  ledger_price L b (sr_now r) = Some p /\ exists a, nth_error (sr_ais r) i = Some a /\ a_data a = CBank b.
Proof.
  intros F H. unfold scan_at in H. opt H. apply pair_equal_spec in H as [-> ->] || (injection H as <- <-).
  unfold scan_infos in O1. opt O1. injection O1 as <-. split.
  - eapply price_ledger; [| | | |exact O2].
    + eapply nth_ledger; eassumption.
    + destruct (bk_fallback b0 =? NO_KEY); [intros x E; discriminate|]. apply find_key_ledger, from_ledger_skipn. exact F.
    + apply find_key_ledger, from_ledger_skipn. exact F.
    + apply find_key_ledger, from_ledger_skipn. exact F.
  - exists a. split; [first [reflexivity|exact O]|]. unfold bank_of in O0. destruct (a_data a); try discriminate. congruence.
Qed.
Lemma index_of_spec f l : forall n i, index_of f l n = Some i -> (i < n)%nat /\ exists a, nth_error l i = Some a /\ f a = true.
Proof.
  induction l as [|a l IH]; intros [|n] i H; cbn [index_of] in H; try discriminate.
  destruct (f a) eqn:E; [injection H as <-; split; [lia|exists a; auto]|].
  destruct (index_of f l n) as [k|] eqn:Ek; [|discriminate]. injection H as <-. apply IH in Ek as [Hk (x & H1 & H2)].
  split; [lia|]. exists x. auto.
Qed.
Lemma scan_banks_group l g : forall seen i a b, scan_banks l g seen = true -> (i < count_while is_bank l)%nat ->
  nth_error l i = Some a -> a_data a = CBank b -> bk_group b = g.
Proof.
  induction l as [|x l IH]; intros seen i a b H Hi Ha Hb; [destruct i; discriminate|]. cbn [scan_banks count_while] in *.
  unfold is_bank in Hi at 1. destruct (a_data x) eqn:Ex; try (exfalso; lia).
  apply andb_prop in H as [H1 H2]. apply andb_prop in H1 as [H1 _]. destruct i as [|i].
  - cbn in Ha. injection Ha as ->. rewrite Hb in Ex. injection Ex as ->. apply Z.eqb_eq. exact H1.
  - cbn in Ha. eapply IH; [exact H2| |exact Ha|exact Hb]. lia.
Qed.
Lemma scan_perps_group l g : forall seen i a b, scan_perps l g seen = true -> (i < count_while is_perp l)%nat ->
  nth_error l i = Some a -> a_data a = CPerp b -> pm_group b = g.
Proof.
  induction l as [|x l IH]; intros seen i a b H Hi Ha Hb; [destruct i; discriminate|]. cbn [scan_perps count_while] in *.
  unfold is_perp in Hi at 1. destruct (a_data x) eqn:Ex; try (exfalso; lia).
  apply andb_prop in H as [H1 H2]. apply andb_prop in H1 as [H1 _]. destruct i as [|i].
  - cbn in Ha. injection Ha as ->. rewrite Hb in Ex. injection Ex as ->. apply Z.eqb_eq. exact H1.
  - cbn in Ha. eapply IH; [exact H2| |exact Ha|exact Hb]. lia.
Qed.

Lemma bank_below_spec ais t : forall n i b, bank_below ais t n = Some (i, b) ->
  (i < n)%nat /\ bk_token b = t /\ exists a, nth_error ais i = Some a /\ a_data a = CBank b.
Proof.
  induction n as [|n IH]; intros i b H; [discriminate|]. cbn [bank_below] in H.
  destruct (nth_error ais n) as [[k d]|] eqn:E; [|discriminate]. destruct d as [b0| | | |]; try discriminate.
  destruct (Z.eqb_spec (bk_token b0) t) as [Et|].
  - injection H as <- <-. split; [lia|]. split; [exact Et|]. eexists. split; [exact E|reflexivity].
  - apply IH in H as (H1 & H2). split; [lia|exact H2].
Qed.
Lemma bank_below_finds ais t : forall n i a b, (i < n)%nat -> (forall j, (j < n)%nat -> exists x, nth_error ais j = Some x /\ is_bank x = true) ->
  nth_error ais i = Some a -> a_data a = CBank b -> bk_token b = t ->
  (forall j x y, (i < j < n)%nat -> nth_error ais j = Some x -> a_data x = CBank y -> bk_token y <> t) ->
  bank_below ais t n = Some (i, b).
Proof.
  induction n as [|n IH]; intros i a b Hi Hall Ha Hb Ht Hno; [lia|]. cbn [bank_below].
  destruct (Nat.eq_dec i n) as [->|Hne].
  - rewrite Ha. destruct a as [k d]. cbn in Hb. subst d. rewrite Ht, Z.eqb_refl. reflexivity.
  - destruct (Hall n ltac:(lia)) as ([k d] & E & Eb). rewrite E. unfold is_bank in Eb. cbn in Eb. destruct d as [y| | | |]; try discriminate.
    destruct (Z.eqb_spec (bk_token y) t) as [Et|]; [exfalso; apply (Hno n _ y ltac:(lia) E eq_refl Et)|].
    eapply IH; try eassumption; [lia|intros; apply Hall; lia|]. intros j x z Hj. apply Hno. lia.
Qed.
Lemma bank_below_none ais t : forall n, (forall j, (j < n)%nat -> exists x y, nth_error ais j = Some x /\ a_data x = CBank y /\ bk_token y <> t) ->
  bank_below ais t n = None.
Proof.
  induction n as [|n IH]; intros H; [reflexivity|]. cbn [bank_below]. destruct (H n ltac:(lia)) as ([k d] & y & E & Ed & Ht).
  rewrite E. cbn in Ed. subst d. destruct (Z.eqb_spec (bk_token y) t); [contradiction|]. apply IH. intros j Hj. apply H. lia.
Qed.
Lemma count_while_all f l : forall j, (j < count_while f l)%nat -> exists x, nth_error l j = Some x /\ f x = true.
Proof.
  induction l as [|a l IH]; intros j H; [cbn in H; lia|]. cbn [count_while] in H. destruct (f a) eqn:E; [|lia].
  destruct j; [exists a; auto|]. apply IH. lia.
Qed.

(** accuracy of the powers of ten *)
Lemma pow10_nonneg d : 0 <= d <= 12 -> power_of_ten d = Some (fone * 10 ^ d).
Proof. intros H. unfold power_of_ten. destruct (Z.leb_spec (-12) d); [|lia]. destruct (Z.leb_spec d 12); [|lia]. cbn [andb]. destruct (Z.leb_spec 0 d); [reflexivity|lia]. Qed.
Lemma pow10_neg n a : 1 <= n <= 12 -> power_of_ten (- n) = Some a -> 0 < a /\ 2 * Z.abs (a * 10 ^ n - fone) <= 10 ^ n.
Proof.
  intros H E.
  assert (C: n = 1 \/ n = 2 \/ n = 3 \/ n = 4 \/ n = 5 \/ n = 6 \/ n = 7 \/ n = 8 \/ n = 9 \/ n = 10 \/ n = 11 \/ n = 12) by lia.
  repeat (destruct C as [->|C]; [vm_compute in E; injection E as <-; split; [reflexivity|apply Z.leb_le; vm_compute; reflexivity]|]).
  subst n. vm_compute in E. injection E as <-. split; [reflexivity|apply Z.leb_le; vm_compute; reflexivity].
Qed.

Lemma leading_nth ais : forall i, nth_error (leading_tokens ais) i =
  if Nat.ltb i (count_while is_bank ais) then match nth_error ais i with Some (mkAi _ (CBank b)) => Some (bk_token b) | _ => None end else None.
Proof.
  induction ais as [|[k d] l IH]; intros i; [destruct i; reflexivity|]. cbn [leading_tokens count_while a_data].
  destruct d as [b| | | |]; unfold is_bank; cbn [a_data]; try (destruct i; reflexivity).
  destruct i as [|i]; [reflexivity|]. cbn [nth_error]. rewrite IH. reflexivity.
Qed.
Lemma leading_length ais : length (leading_tokens ais) = count_while is_bank ais.
Proof. induction ais as [|[k d] l IH]; [reflexivity|]. cbn [leading_tokens count_while a_data]. unfold is_bank; cbn [a_data]. destruct d; cbn [length]; try reflexivity. rewrite IH. reflexivity. Qed.
Lemma subseq_In l m x : subseq l m -> In x l -> In x m.
Proof. induction 1; cbn; intuition. Qed.
Lemma subseq_nodup l m : subseq l m -> NoDup m -> NoDup l.
Proof.
  induction 1; intros N; [constructor|inversion N; auto|]. inversion N; subst. constructor; [|auto]. intros H1. apply H2. eapply subseq_In; eassumption.
Qed.
Lemma subseq_pos l m : subseq l m -> NoDup m -> forall i j x, nth_error l i = Some x -> nth_error m j = Some x -> (i <= j)%nat.
Proof.
  induction 1 as [|y l m S IH|y l m S IH]; intros N i j x Hi Hj; [destruct i; discriminate| |]; inversion N as [|? ? Ny Nm]; subst.
  - destruct j as [|j]; [|cbn in Hj; pose proof (IH Nm i j x Hi Hj); lia]. cbn in Hj. injection Hj as ->.
    exfalso. apply Ny. eapply subseq_In; [exact S|]. eapply nth_error_In; exact Hi.
  - destruct i as [|i]; [lia|]. cbn in Hi. destruct j as [|j].
    + cbn in Hj. injection Hj as ->. exfalso. apply Ny. eapply subseq_In; [exact S|]. eapply nth_error_In; exact Hi.
    + cbn in Hj. pose proof (IH Nm i j x Hi Hj). lia.
Qed.
