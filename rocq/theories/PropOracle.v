(** C44: oracle prices are fresh and certain; C68: prices do not depend on which
    accounts the caller passes.  Public statements. *)
From Coq Require Import List ZArith Lia Bool Arith.
From Verif Require Import Fixed Interest Bank Oracle OracleSpec OracleFacts.
Import ListNotations.
Open Scope Z_scope.

Definition slot_in_range (now : option (Z * Z)) : Prop := forall ts slot, now = Some (ts, slot) -> 0 <= slot <= U64_MAX.

(** ** C44 *)
(** A bank price is the price of its own oracle, fresh and certain, or - only if that
    one is not - of its own fallback oracle, fresh and certain. *)
Theorem C44_bank_price (b : bkinfo) (i : oinfos) (now : option (Z * Z)) (p : fx) :
  slot_in_range now -> bank_price b i now = Some p ->
  a_key (oi_oracle i) = bk_oracle b /\
  exists s0, oracle_state i (bk_decimals b) false = Some s0 /\
   ((acceptable s0 (bk_cfg b) now /\ p = os_price s0) \/
    (~ acceptable s0 (bk_cfg b) now /\
     exists f s, oi_fallback i = Some f /\ a_key f = bk_fallback b /\ oracle_state i (bk_decimals b) true = Some s /\
       acceptable s (bk_cfg b) now /\ p = os_price s)).
Proof.
  intros Hr H. unfold bank_price in H. opt H. apply Z.eqb_eq in G. split; [congruence|].
  exists o. split; [first [reflexivity|exact O]|]. apply check_state_spec in O0 as [A1 A2].
  destruct b0; [left; injection H as <-; auto|right].
  split; [intros A; specialize (A2 Hr A); discriminate|].
  opt H. apply Z.eqb_eq in G0. subst b0. injection H as <-. apply check_state_spec in O2 as [B1 _].
  exists a, o0. split; [first [reflexivity|exact O1]|]. split; [congruence|]. split; [first [reflexivity|exact O2]|]. split; [auto|reflexivity].
Qed.
(** The bank's own oracle decides whenever it is fresh and certain, whatever fallback
    is at hand; without an acceptable reading there is no price. *)
Theorem C44_primary_first (b : bkinfo) (i : oinfos) (now : option (Z * Z)) (s : ostate) :
  slot_in_range now -> a_key (oi_oracle i) = bk_oracle b -> oracle_state i (bk_decimals b) false = Some s ->
  acceptable s (bk_cfg b) now -> check_state s (bk_cfg b) now <> None -> bank_price b i now = Some (os_price s).
Proof.
  intros Hr Hk Hs Ha Hc. unfold bank_price. rewrite Hk, Z.eqb_refl. cbn [guard]. rewrite Hs.
  destruct (check_state s (bk_cfg b) now) as [ok|] eqn:E; [|congruence].
  apply check_state_spec in E as [_ E]. rewrite (E Hr Ha). reflexivity.
Qed.
Theorem C44_no_price (b : bkinfo) (i : oinfos) (now : option (Z * Z)) :
  (forall s use, oracle_state i (bk_decimals b) use = Some s -> ~ acceptable s (bk_cfg b) now) -> bank_price b i now = None.
Proof.
  intros H. destruct (bank_price b i now) as [p|] eqn:E; [|reflexivity]. exfalso. unfold bank_price in E. opt E.
  apply check_state_spec in O0 as [A1 _]. destruct b0; [apply (H _ _ O); auto|]. opt E. subst b0.
  apply check_state_spec in O2 as [B1 _]. apply (H _ _ O1). auto.
Qed.
(** Perp markets have no fallback. *)
Theorem C44_perp_price (m : pminfo) (i : oinfos) (now : option (Z * Z)) (p : fx) :
  perp_price m i now = Some p ->
  a_key (oi_oracle i) = pm_oracle m /\
  exists s, oracle_state i (pm_decimals m) false = Some s /\ acceptable s (pm_cfg m) now /\ p = os_price s.
Proof.
  intros H. unfold perp_price in H. opt H. apply Z.eqb_eq in G. subst b. injection H as <-. split; [congruence|].
  exists o. split; [first [reflexivity|exact O]|]. apply check_state_spec in O0 as [A _]. split; [auto|reflexivity].
Qed.

(** The native price read from a Pyth account ([price] * 10^[expo] per whole token):
    exact when the scale is not negative, else within 10^n / 2^49 of it, relatively;
    n is at most 12, so the error is at most 0.18%. *)
Theorem C44_pyth_value (i : oinfos) (trading : bool) (agg prev : pquote) (expo base : Z) (s : ostate) :
  a_data (oi_oracle i) = COracle (OdPyth trading agg prev expo) -> -128 <= expo <= 127 ->
  oracle_state i base false = Some s ->
  let q := if trading then agg else prev in
  let d := expo + 6 - base in
  -12 <= d <= 12 /\ os_slot s = pq_slot q /\ os_time s = None /\
  (0 <= d -> os_price s = pq_price q * 10 ^ d * fone /\ os_dev s = pq_conf q * 10 ^ d * fone) /\
  (d < 0 -> 2 * Z.abs (os_price s * 10 ^ (- d) - pq_price q * fone) <= Z.abs (pq_price q) * 10 ^ (- d) /\
            2 * Z.abs (os_dev s * 10 ^ (- d) - pq_conf q * fone) <= Z.abs (pq_conf q) * 10 ^ (- d)) /\
  0 <= os_price s.
Proof.
  intros Ha He H. unfold oracle_state in H. rewrite Ha in H. cbn [pyth_state] in H. set (q := if trading then agg else prev) in *.
  unfold scaled in H. opt H. injection H as <-. cbn [os_slot os_time os_price os_dev].
  assert (E8: as_i8 expo = expo) by (unfold as_i8; rewrite Z.mod_small; lia). rewrite E8 in *.
  unfold chk_i8 in O, O0. destruct (_ && _) in O; [|discriminate]. injection O as <-. destruct (_ && _) in O0; [|discriminate]. injection O0 as <-.
  change QUOTE_DECIMALS with 6 in *. set (d := expo + 6 - base) in *.
  unfold chk_fx in O2, O3. destruct (_ && _) in O2; [|discriminate]. injection O2 as <-. destruct (_ && _) in O3; [|discriminate]. injection O3 as <-.
  rewrite !fmul_int_l in *. apply Z.leb_le in G.
  assert (Hd: -12 <= d <= 12).
  { unfold power_of_ten in O1. destruct (Z.leb_spec (-12) d); [|discriminate]. destruct (Z.leb_spec d 12); [lia|discriminate]. }
  cbv zeta. split; [exact Hd|]. split; [reflexivity|]. split; [reflexivity|]. split; [|split; [|exact G]].
  - intros H0. rewrite pow10_nonneg in O1 by lia. assert (E1: z1 = fone * 10 ^ d) by congruence. rewrite E1. split; ring.
  - intros H0. replace d with (- - d) in O1 by lia. destruct (pow10_neg (- d) z1 ltac:(lia) O1) as [_ E].
    assert (K: forall x, 2 * Z.abs (x * z1 * 10 ^ (- d) - x * fone) <= Z.abs x * 10 ^ (- d)).
    { intros x. replace (x * z1 * 10 ^ (- d) - x * fone) with (x * (z1 * 10 ^ (- d) - fone)) by ring. rewrite Z.abs_mul.
      set (uu := Z.abs (z1 * 10 ^ (- d) - fone)) in *. set (v := 10 ^ (- d)) in *. pose proof (Z.abs_nonneg x). clearbody uu v. nia. }
    split; apply K.
Qed.

(** Finding: for tokens priced through a liquidity pool the confidence check compares
    the deviation of the quote feed with the price of the token, although the token's
    deviation is that many times larger.  A feed that is refused as uncertain
    when used directly is accepted through the pool (oracle.rs:503-530). *)
Definition bad_feed : content := COracle (OdPyth true (mkPq 100000000 50000000 1000) (mkPq 0 0 0) (-8)).
Definition ten_percent : ocfg := mkCfg (fone / 10) 100.
Definition pool : content := COracle (OdPool (32 * 2 ^ 64) None 77 USDC_MINT).
Theorem C44_pool_confidence_refuted :
  exists (i : oinfos) (b : bkinfo) (f : ainfo) (p : fx),
    a_data (oi_oracle i) = pool /\ oi_fallback i = None /\ oi_usdc i = Some f /\
    bank_price b i (Some (0, 1000)) = Some p /\
    bank_price (mkBk 1 5 (a_key f) NO_KEY (bk_cfg b) 6) (from_reader f) (Some (0, 1000)) = None.
Proof.
  exists (mkOi (mkAi 50 pool) None (Some (mkAi USDC_FEED bad_feed)) None), (mkBk 1 5 50 NO_KEY ten_percent 6), (mkAi USDC_FEED bad_feed), 288230400000000000.
  do 3 (split; [reflexivity|]). split; vm_compute; reflexivity.
Qed.

(** ** C68 *)
(** Whatever accounts of the chain a caller passes and in whatever order: a bank that
    is handed out is a bank of the group for the requested token, and its price is the
    one that follows from the chain. *)
Theorem C68_fixed_bank (L : ledger) (r : fixed) (group : Z) (pos : nat) (token : Z) (b : bkinfo) (p : fx) :
  from_ledger L (fr_ais r) -> fixed_bank_and_oracle r group pos token = Some (b, p) ->
  bk_group b = group /\ bk_token b = token /\ (exists k, L k = CBank b) /\ ledger_price L b (fr_now r) = Some p.
Proof.
  intros F H. unfold fixed_bank_and_oracle in H. opt H. apply pair_equal_spec in H as [-> ->] || injection H as <- <-.
  unfold fixed_bank in O. opt O. apply Z.eqb_eq in G. injection O as <- <-. apply bank_below_spec in O2 as (_ & Ht & a & Ha & Hb).
  split; [exact G|]. split; [exact Ht|]. split.
  - exists (a_key a). rewrite <- (nth_ledger L _ _ _ F Ha). exact Hb.
  - unfold fixed_infos in O0. opt O0. injection O0 as <-. eapply price_ledger; [| | | |exact O1].
    + eapply nth_ledger; eassumption.
    + apply find_key_ledger, from_ledger_skipn. exact F.
    + apply find_key_ledger. exact F.
    + apply find_key_ledger. exact F.
Qed.
Theorem C68_scanned_bank (L : ledger) (ais : list ainfo) (r : scanning) (group token : Z) (now : option (Z * Z)) (b : bkinfo) (p : fx) :
  from_ledger L ais -> scanning_new ais group now = Some r -> scanned_bank_and_oracle r token = Some (b, p) ->
  bk_group b = group /\ bk_token b = token /\ (exists k, L k = CBank b) /\ ledger_price L b now = Some p.
Proof.
  intros F Hn H. unfold scanning_new in Hn. opt Hn. injection Hn as <-. unfold scanned_bank_and_oracle in H. cbn [sr_ais sr_banks] in H. opt H.
  apply (scan_at_ledger L) in H; [|exact F]. destruct H as [P (a & Ha & Hb)]. cbn [sr_ais sr_now] in *.
  apply index_of_spec in O as [Hi (a' & Ha' & Hf)]. rewrite Ha in Ha'. injection Ha' as <-.
  split; [eapply scan_banks_group; eassumption|]. split; [unfold has_token in Hf; rewrite Hb in Hf; apply Z.eqb_eq; exact Hf|].
  split; [|exact P]. exists (a_key a). rewrite <- (nth_ledger L _ _ _ F Ha). exact Hb.
Qed.
(** Asking for two banks at once gives each its own price. *)
Theorem C68_two_banks (r : scanning) (t1 t2 : Z) (b1 : bkinfo) (p1 : fx) (o : option (bkinfo * fx)) :
  scanned_two r t1 t2 = Some (b1, p1, o) ->
  scanned_bank_and_oracle r t1 = Some (b1, p1) /\
  (t1 = t2 -> o = None) /\ (t1 <> t2 -> exists b2 p2, o = Some (b2, p2) /\ scanned_bank_and_oracle r t2 = Some (b2, p2)).
Proof.
  unfold scanned_two, scanned_bank_and_oracle. intros H. destruct (Z.eqb_spec t1 t2) as [->|Hne].
  - destruct (index_of _ _ _) as [i|]; [|discriminate]. destruct (scan_at r i) as [[b p]|]; [|discriminate].
    injection H as <- <- <-. split; [reflexivity|]. split; [auto|congruence].
  - destruct (index_of (has_token t1) _ _) as [i1|]; [|discriminate]. destruct (index_of (has_token t2) _ _) as [i2|]; [|discriminate].
    destruct (Nat.ltb i1 i2).
    + destruct (scan_at r i1) as [[x1 q1]|]; [|discriminate]. destruct (scan_at r i2) as [[x2 q2]|]; [|discriminate].
      injection H as <- <- <-. split; [reflexivity|]. split; [congruence|]. intros _. exists x2, q2. auto.
    + destruct (scan_at r i2) as [[x2 q2]|]; [|discriminate]. destruct (scan_at r i1) as [[x1 q1]|]; [|discriminate].
      injection H as <- <- <-. split; [reflexivity|]. split; [congruence|]. intros _. exists x2, q2. auto.
Qed.
Lemma perp_ledger L m o now p : a_data o = L (a_key o) -> perp_price m (from_reader o) now = Some p -> ledger_perp_price L m now = Some p.
Proof.
  intros Ho H. assert (Ek: pm_oracle m = a_key o). { unfold perp_price in H. opt H. apply Z.eqb_eq in G. exact G. }
  eapply perp_price_covers; [|exact H]. constructor; cbn; [rewrite Ek; auto|intros x E; discriminate|intros x E; discriminate|intros x E; discriminate].
Qed.
(** Likewise for perp markets, with both retrievers. *)
Theorem C68_perp_markets (L : ledger) (group index : Z) (m : pminfo) (p : fx) :
  (forall r pos, from_ledger L (fr_ais r) -> fixed_perp_and_oracle r group pos index = Some (m, p) ->
     pm_group m = group /\ pm_index m = index /\ (exists k, L k = CPerp m) /\ ledger_perp_price L m (fr_now r) = Some p) /\
  (forall ais r now, from_ledger L ais -> scanning_new ais group now = Some r -> scanned_perp_and_oracle r index = Some (m, p) ->
     pm_group m = group /\ pm_index m = index /\ (exists k, L k = CPerp m) /\ ledger_perp_price L m now = Some p).
Proof.
  split.
  - intros r pos F H. unfold fixed_perp_and_oracle in H. opt H. destruct (a_data a) as [|m0| | |] eqn:Ea; try discriminate. opt H.
    apply andb_prop in G as [G1 G2]. apply Z.eqb_eq in G1, G2. injection H as <- <-.
    split; [exact G1|]. split; [exact G2|]. split; [exists (a_key a); rewrite <- (nth_ledger L _ _ _ F O); exact Ea|].
    eapply perp_ledger; [|exact O1]. eapply nth_ledger; eassumption.
  - intros ais r now F Hn H. unfold scanning_new in Hn. opt Hn. injection Hn as <-. unfold scanned_perp_and_oracle in H.
    cbn [sr_ais sr_banks sr_perps sr_now] in H. opt H. injection H as <- <-.
    pose proof (from_ledger_skipn L (2 * count_while is_bank ais) ais F) as Fs.
    unfold perp_of in O1. destruct (a_data a) as [|m0| | |] eqn:Ea; try discriminate. injection O1 as ->.
    apply index_of_spec in O as [Hi (a' & Ha' & Hf)].
    match type of O0 with nth_error _ _ = Some _ => rewrite O0 in Ha' end. injection Ha' as <-.
    split; [eapply scan_perps_group; eassumption|]. split; [unfold has_market in Hf; rewrite Ea in Hf; apply Z.eqb_eq; exact Hf|].
    split; [exists (a_key a); rewrite <- (nth_ledger L _ _ _ Fs O0); exact Ea|].
    eapply perp_ledger; [|exact O3]. eapply nth_ledger; [exact Fs|exact O2].
Qed.
(** So two callers can never obtain different prices of a bank at the same time, one
    with each retriever or both with the same. *)
Theorem C68_same_price (L : ledger) (f1 f2 : fixed) (ais : list ainfo) (s : scanning) (group token : Z) (i j : nat)
  (b : bkinfo) (p q z : fx) :
  from_ledger L (fr_ais f1) -> from_ledger L (fr_ais f2) -> from_ledger L ais -> fr_now f1 = fr_now f2 ->
  scanning_new ais group (fr_now f1) = Some s ->
  (fixed_bank_and_oracle f1 group i token = Some (b, p) -> fixed_bank_and_oracle f2 group j token = Some (b, q) -> p = q) /\
  (fixed_bank_and_oracle f1 group i token = Some (b, p) -> scanned_bank_and_oracle s token = Some (b, z) -> p = z).
Proof.
  intros L1 L2 L3 En Hs. split; intros H1 H2; apply (C68_fixed_bank L) in H1; try assumption; destruct H1 as (_ & _ & _ & H1).
  - apply (C68_fixed_bank L) in H2; [|assumption]. destruct H2 as (_ & _ & _ & H2). rewrite En in H1. congruence.
  - apply (C68_scanned_bank L ais s group token (fr_now f1)) in H2; [|assumption|assumption]. destruct H2 as (_ & _ & _ & H2). congruence.
Qed.

(** The documented layout works: if the banks passed are those of the account's tokens
    in the order of its positions, some left out, the lookup finds every bank that was
    passed, at its place, and finds none for a token that was left out. *)
Theorem C68_layout (ais : list ainfo) (tokens : list Z) (n_perps n_oos : nat) (now : Z * Z) (r : fixed) (group : Z) (pos : nat) (token : Z) :
  fixed_new_optional ais (length tokens) n_perps n_oos now = Some r ->
  NoDup tokens -> subseq (leading_tokens ais) tokens -> nth_error tokens pos = Some token ->
  (forall k b, In (mkAi k (CBank b)) ais -> bk_group b = group) ->
  (~ In token (leading_tokens ais) -> fixed_bank r group pos token = None) /\
  (forall i, nth_error (leading_tokens ais) i = Some token ->
     exists k b, nth_error ais i = Some (mkAi k (CBank b)) /\ fixed_bank r group pos token = Some (i, b)).
Proof.
  intros Hn Nd Hs Hp Hg. unfold fixed_new_optional in Hn. opt Hn. unfold fixed_inner in Hn. opt Hn. injection Hn as <-.
  set (n := count_while is_bank ais) in *. unfold fixed_bank. cbn [fr_ais fr_banks].
  assert (Nth: forall i, (i < n)%nat -> exists k b, nth_error ais i = Some (mkAi k (CBank b)) /\ nth_error (leading_tokens ais) i = Some (bk_token b)).
  { intros i Hi. rewrite leading_nth. fold n. destruct (Nat.ltb_spec i n); [|lia]. destruct (count_while_all is_bank ais i Hi) as ([k d] & E & Eb).
    rewrite E. unfold is_bank in Eb. cbn in Eb. destruct d; try discriminate. eauto. }
  split.
  - intros Hno. rewrite bank_below_none; [reflexivity|]. intros j Hj. destruct (Nth j ltac:(lia)) as (k & b & E & El).
    exists (mkAi k (CBank b)), b. split; [exact E|]. split; [reflexivity|]. intros Q. rewrite Q in El. apply Hno. eapply nth_error_In; exact El.
  - intros i Hi. assert (Hin: (i < n)%nat). { unfold n. rewrite <- leading_length. apply nth_error_Some. congruence. }
    destruct (Nth i Hin) as (k & b & E & El). rewrite Hi in El. injection El as Et.
    pose proof (subseq_pos _ _ Hs Nd _ _ _ Hi Hp) as Hle.
    exists k, b. split; [exact E|].
    rewrite (bank_below_finds ais token (Nat.min (S pos) n) i (mkAi k (CBank b)) b); [|lia| |exact E|reflexivity|symmetry; exact Et|].
    + cbn. rewrite (Hg k b) by (eapply nth_error_In; exact E). rewrite Z.eqb_refl. reflexivity.
    + intros j Hj. destruct (Nth j ltac:(lia)) as (k' & b' & E' & _). exists (mkAi k' (CBank b')). split; [exact E'|reflexivity].
    + intros j x y Hj Ex Ey Hty. destruct (Nth j ltac:(lia)) as (k' & b' & E' & El'). rewrite Ex in E'. injection E' as ->. cbn in Ey. injection Ey as ->.
      pose proof (subseq_nodup _ _ Hs Nd) as Nd'. rewrite NoDup_nth_error in Nd'.
      assert (j = i); [|lia]. apply Nd'; [rewrite leading_length; fold n; lia|]. rewrite El', Hi, Hty. reflexivity.
Qed.
(** And if everything the price can depend on is passed, the caller gets exactly the
    price that follows from the chain, or none if there is none. *)
Lemma find_key_in L ais k : from_ledger L ais -> (exists a, In a ais /\ a_key a = k) -> find_key ais k = Some (at_key L k).
Proof.
  intros F (a & Hin & Hk). unfold find_key. destruct (find _ ais) as [x|] eqn:E.
  - apply find_some in E as [Hx Ex]. apply Z.eqb_eq in Ex. pose proof (proj1 (Forall_forall _ _) F x Hx) as Hd. cbn beta in Hd.
    destruct x as [kx dx]. cbn in *. subst. reflexivity.
  - pose proof (find_none _ _ E a Hin) as N. cbn beta in N. rewrite Hk, Z.eqb_refl in N. discriminate.
Qed.
Theorem C68_complete (L : ledger) (r : fixed) (group : Z) (pos i : nat) (token : Z) (b : bkinfo) :
  from_ledger L (fr_ais r) -> fixed_bank r group pos token = Some (i, b) ->
  (exists o, nth_error (fr_ais r) (fr_banks r + i) = Some o /\ a_key o = bk_oracle b) ->
  (forall k, In k [bk_fallback b; USDC_FEED; SOL_FEED] ->
     exists a, In a (skipn (fr_banks r * 2 + fr_perps r * 2 + fr_oos r) (fr_ais r)) /\ a_key a = k) ->
  fixed_bank_and_oracle r group pos token = option_map (pair b) (ledger_price L b (fr_now r)).
Proof.
  intros F Hb (o & Ho & Hk) Hin. unfold fixed_bank_and_oracle. rewrite Hb. unfold fixed_infos. rewrite Ho.
  pose proof (nth_ledger L _ _ _ F Ho) as Hd. pose proof (from_ledger_skipn L (fr_banks r * 2 + fr_perps r * 2 + fr_oos r) _ F) as Fs.
  assert (Up: forall k, (exists a, In a (skipn (fr_banks r * 2 + fr_perps r * 2 + fr_oos r) (fr_ais r)) /\ a_key a = k) ->
                        exists a, In a (fr_ais r) /\ a_key a = k).
  { intros k (a & Ha & E). exists a. split; [|exact E]. rewrite <- (firstn_skipn (fr_banks r * 2 + fr_perps r * 2 + fr_oos r)).
    apply in_or_app. right. exact Ha. }
  rewrite (find_key_in L _ (bk_fallback b) Fs) by (apply Hin; left; reflexivity).
  rewrite (find_key_in L _ USDC_FEED F) by (apply Up, Hin; right; left; reflexivity).
  rewrite (find_key_in L _ SOL_FEED F) by (apply Up, Hin; right; right; left; reflexivity).
  unfold ledger_price, ledger_infos. replace o with (at_key L (bk_oracle b)).
  - destruct (bank_price _ _ _); reflexivity.
  - destruct o as [ko dko]. cbn in *. subst. reflexivity.
Qed.

Lemma nth_error_firstn_lt {A} (l : list A) : forall n j, (j < n)%nat -> nth_error (firstn n l) j = nth_error l j.
Proof. induction l as [|x l IH]; intros [|n] [|j] H; try reflexivity; try lia. cbn [firstn nth_error]. apply IH. lia. Qed.
(** Open orders accounts: whichever retriever is used, what is found is the account of the chain with the requested address,
    and it is an open orders account. *)
Theorem C68_open_orders (L : ledger) (key : Z) (a : ainfo) :
  (forall r pos, from_ledger L (fr_ais r) -> fixed_oo r pos key = Some a -> a_key a = key /\ a_data a = L key /\ L key = COpenOrders) /\
  (forall ais r group now, from_ledger L ais -> scanning_new ais group now = Some r -> scanned_oo r key = Some a ->
     a_key a = key /\ a_data a = L key /\ L key = COpenOrders).
Proof.
  assert (K : is_oo a = true -> a_data a = L (a_key a) -> a_key a = key -> a_key a = key /\ a_data a = L key /\ L key = COpenOrders).
  { intros I D <-. split; [reflexivity|]. split; [exact D|]. rewrite <- D. unfold is_oo in I. destruct (a_data a); first [discriminate|reflexivity]. }
  split.
  - intros r pos F H. unfold fixed_oo in H. opt H. injection H as <-. apply Z.eqb_eq in G. apply K; [assumption|eapply nth_ledger; eassumption|exact G].
  - intros ais r group now F Hn H. unfold scanning_new in Hn. opt Hn. injection Hn as <-. unfold scanned_oo in H. cbn [sr_ais sr_banks sr_perps sr_oos] in H.
    unfold find_key in H. apply find_some in H as [Hi Hk]. apply Z.eqb_eq in Hk.
    apply In_nth_error in Hi as [j Hj]. 
    match type of Hj with nth_error (firstn (count_while _ ?y) _) _ = _ => change (nth_error (firstn (count_while is_oo y) y) j = Some a) in Hj; set (l := y) in * end.
    assert (Hl : (j < count_while is_oo l)%nat).
    { assert (Hx : nth_error (firstn (count_while is_oo l) l) j <> None) by (rewrite Hj; discriminate). apply nth_error_Some in Hx. rewrite firstn_length in Hx. lia. }
    destruct (count_while_all _ _ _ Hl) as (x & X1 & X2). rewrite nth_error_firstn_lt in Hj by exact Hl. rewrite X1 in Hj. injection Hj as ->.
    apply K; [exact X2| |exact Hk]. eapply nth_ledger; [apply (from_ledger_skipn L); exact F|exact X1].
Qed.

(** ** concrete cases *)
Definition ex_quote (slot : Z) : content := COracle (OdPyth true (mkPq 2000000000 1000000 slot) (mkPq 0 0 0) (-8)).
Definition ex_b1 : bkinfo := mkBk 1 5 50 60 ten_percent 6.        (* stale oracle, fresh fallback *)
Definition ex_b2 : bkinfo := mkBk 1 7 51 NO_KEY ten_percent 9.     (* priced through a pool against SOL *)
Definition ex_m : pminfo := mkPm 1 3 60 ten_percent 6.
Definition ex_L : ledger := fun k =>
  if k =? 10 then CBank ex_b1 else if k =? 11 then CBank ex_b2 else if k =? 12 then CPerp ex_m
  else if k =? 50 then ex_quote 100 else if k =? 60 then ex_quote 990
  else if k =? 51 then COracle (OdPool (2 ^ 64) None 99 SOL_MINT)
  else if k =? SOL_FEED then ex_quote 1000 else if k =? USDC_FEED then ex_quote 5 else COther.
Definition ex_ais : list ainfo := map (at_key ex_L) [10; 11; 50; 51; 12; 60; 60; SOL_FEED; USDC_FEED].
Definition ex_now : Z * Z := (0, 1000).
Lemma from_map L ks : from_ledger L (map (at_key L) ks).
Proof. unfold from_ledger. apply Forall_forall. intros a Ha. apply in_map_iff in Ha as (k & <- & _). reflexivity. Qed.
Definition ex_fixed : fixed := mkFixed ex_ais 2 1 0 (Some ex_now).
Definition ex_scan : scanning := mkScan ex_ais 2 1 0 (Some ex_now).
Example C44_case :
  slot_in_range (Some ex_now) /\ bank_price ex_b1 (ledger_infos ex_L ex_b1) (Some ex_now) = Some 5629500000000000 /\
  (exists s, oracle_state (ledger_infos ex_L ex_b2) 9 false = Some s /\ acceptable s (bk_cfg ex_b2) (Some ex_now) /\
     check_state s (bk_cfg ex_b2) (Some ex_now) <> None) /\
  bank_price ex_b1 (ledger_infos ex_L ex_b1) (Some (0, 2000)) = None /\
  perp_price ex_m (from_reader (at_key ex_L 60)) (Some ex_now) = Some 5629500000000000 /\
  (exists s, oracle_state (from_reader (at_key ex_L 60)) 6 false = Some s).
Proof.
  split; [intros ts slot E; injection E as <- <-; split; apply Z.leb_le; vm_compute; reflexivity|].
  split; [vm_compute; reflexivity|]. split.
  - eexists. split; [vm_compute; reflexivity|]. split; [|vm_compute; discriminate].
    split; [intros ts slot E; injection E as <- <-; right; split; [apply Z.leb_le; vm_compute; reflexivity|intros t Et; discriminate]|].
    apply Z.leb_le; vm_compute; reflexivity.
  - split; [vm_compute; reflexivity|]. split; [vm_compute; reflexivity|]. eexists. vm_compute. reflexivity.
Qed.
Example C68_case :
  from_ledger ex_L ex_ais /\ fixed_new ex_ais 2 1 0 ex_now = Some ex_fixed /\
  scanning_new ex_ais 1 (Some ex_now) = Some ex_scan /\
  fixed_bank_and_oracle ex_fixed 1 0 5 = Some (ex_b1, 5629500000000000) /\
  fixed_bank_and_oracle ex_fixed 1 1 7 = Some (ex_b2, 5630000000000) /\
  scanned_bank_and_oracle ex_scan 7 = Some (ex_b2, 5630000000000) /\
  scanned_two ex_scan 7 5 = Some (ex_b2, 5630000000000, Some (ex_b1, 5629500000000000)) /\
  fixed_perp_and_oracle ex_fixed 1 0 3 = Some (ex_m, 5629500000000000) /\
  scanned_perp_and_oracle ex_scan 3 = Some (ex_m, 5629500000000000).
Proof. split; [apply from_map|]. do 7 (split; [vm_compute; reflexivity|]). vm_compute; reflexivity. Qed.
(** an account with three positions, the bank of the second not passed *)
Definition ex_short : fixed := mkFixed ex_ais 2 1 0 (Some ex_now).
Example C68_layout_case :
  fixed_new_optional ex_ais (length [5; 6; 7]) 1 0 ex_now = Some ex_short /\ NoDup [5; 6; 7] /\
  subseq (leading_tokens ex_ais) [5; 6; 7] /\ (forall k b, In (mkAi k (CBank b)) ex_ais -> bk_group b = 1) /\
  fixed_bank ex_short 1 2 7 = Some (1%nat, ex_b2) /\ fixed_bank ex_short 1 1 6 = None.
Proof.
  split; [vm_compute; reflexivity|].
  split; [constructor; [cbn; lia|constructor; [cbn; lia|constructor; [cbn; lia|constructor]]]|].
  split; [change (subseq [5; 7] [5; 6; 7]); apply sub_take, sub_skip, sub_take, sub_nil|].
  split; [|split; [vm_compute; reflexivity|vm_compute; reflexivity]].
  intros k b Hin. unfold ex_ais in Hin. cbn in Hin.
  repeat (destruct Hin as [E|Hin]; [first [discriminate E|apply (f_equal a_data) in E; cbn in E; injection E as <-; reflexivity]|]).
  destruct Hin.
Qed.
Example C68_complete_case :
  fixed_bank ex_fixed 1 0 5 = Some (0%nat, ex_b1) /\
  (exists o, nth_error (fr_ais ex_fixed) (fr_banks ex_fixed + 0) = Some o /\ a_key o = bk_oracle ex_b1) /\
  (forall k, In k [bk_fallback ex_b1; USDC_FEED; SOL_FEED] ->
     exists a, In a (skipn (fr_banks ex_fixed * 2 + fr_perps ex_fixed * 2 + fr_oos ex_fixed) (fr_ais ex_fixed)) /\ a_key a = k).
Proof.
  split; [vm_compute; reflexivity|]. split; [eexists; split; vm_compute; reflexivity|].
  intros k Hk. exists (at_key ex_L k). split; [|reflexivity]. cbn in Hk. cbn [ex_fixed fr_banks fr_perps fr_oos fr_ais Nat.mul Nat.add skipn ex_ais map].
  destruct Hk as [<-|[<-|[<-|[]]]]; cbn [In]; auto.
Qed.

Definition ex_ais_oo : list ainfo := map (at_key (fun k => if k =? 77 then COpenOrders else ex_L k)) [10; 11; 50; 51; 12; 60; 77; 60; SOL_FEED; USDC_FEED].
Example C68_open_orders_case :
  fixed_oo (mkFixed ex_ais_oo 2 1 1 (Some ex_now)) 0 77 = Some (mkAi 77 COpenOrders) /\
  fixed_oo (mkFixed ex_ais_oo 2 1 1 (Some ex_now)) 0 78 = None /\
  (exists r, scanning_new ex_ais_oo 1 (Some ex_now) = Some r /\ scanned_oo r 77 = Some (mkAi 77 COpenOrders) /\ scanned_oo r 60 = None).
Proof. split; [vm_compute; reflexivity|]. split; [vm_compute; reflexivity|]. eexists. split; [vm_compute; reflexivity|]. split; vm_compute; reflexivity. Qed.

Print Assumptions C44_bank_price.
Print Assumptions C44_primary_first.
Print Assumptions C44_no_price.
Print Assumptions C44_perp_price.
Print Assumptions C44_pyth_value.
Print Assumptions C44_pool_confidence_refuted.
Print Assumptions C68_fixed_bank.
Print Assumptions C68_scanned_bank.
Print Assumptions C68_two_banks.
Print Assumptions C68_perp_markets.
Print Assumptions C68_same_price.
Print Assumptions C68_layout.
Print Assumptions C68_complete.
Print Assumptions C68_open_orders.
