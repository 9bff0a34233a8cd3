(** C41: conditional swaps never exceed their totals; C66: amounts and price of a
    trigger; C67: what a trigger moves and when it may happen.  Public statements. *)
From Coq Require Import List ZArith Lia Bool Arith.
From Verif Require Import Health HealthSpec LiqState OrderTree Keys PerpTypes Interest InterestFacts Bank BankFacts BankSystem BankSpec PropInterest PropBank Fixed
  Tcs TcsSpec TcsFacts TcsInv TcsMoney.
Import ListNotations.
Open Scope Z_scope.

(** ** C41 *)
(** Over every history of creations, starts, triggers, cancellations and other
    instructions on any number of accounts, the events of a swap never sum up to more
    than the totals it was created with. *)
Theorem C41_totals (w w' : sworld) (ops : list sop) (log : list sevent) (k id mb ms : Z) :
  no_accounts w -> Z.of_nat (length ops) < 2 ^ 64 -> srun w ops = (w', log) ->
  In (ECreate k id mb ms) log -> total_bought k id log <= mb /\ total_sold k id log <= ms.
Proof.
  intros Hn Hl Hr Hin. pose proof (sinv_run ops w [] 0 w' log (sinv_start w Hn) (Z.le_refl 0) Hl Hr) as I.
  rewrite app_nil_l in I. eapply si_tot; eassumption.
Qed.

(** The swap stored in an account carries exactly the sums of its events, and the
    limits of its creation. *)
Theorem C41_slots (w w' : sworld) (ops : list sop) (log : list sevent) (k : Z) (a : sacct) (i : nat) (c : tcs) :
  no_accounts w -> Z.of_nat (length ops) < 2 ^ 64 -> srun w ops = (w', log) ->
  sw_accts w' k = Some a -> nth_error (s_swaps a) i = Some c -> k_on c = true ->
  In (ECreate k (k_id c) (k_max_buy c) (k_max_sell c)) log /\
  k_bought c = total_bought k (k_id c) log /\ k_sold c = total_sold k (k_id c) log /\
  k_bought c <= k_max_buy c /\ k_sold c <= k_max_sell c /\
  forall j d, nth_error (s_swaps a) j = Some d -> k_on d = true -> k_id d = k_id c -> j = i.
Proof.
  intros Hn Hl Hr Ha Hc Hon. pose proof (sinv_run ops w [] 0 w' log (sinv_start w Hn) (Z.le_refl 0) Hl Hr) as I.
  rewrite app_nil_l in I. assert (V: view w' k = Some (s_swaps a, s_next a)) by (unfold view; rewrite Ha; reflexivity).
  destruct (si_slot _ _ _ I k _ _ i c V Hc Hon) as (S1 & S2 & S3 & S4 & S5 & _).
  split; [exact S1|]. split; [symmetry; exact S2|]. split; [symmetry; exact S3|]. split; [exact S4|]. split; [exact S5|].
  intros j d Hd Hod He. eapply si_uniq; [exact I|exact V|exact Hd|exact Hc|exact Hod|exact Hon|exact He].
Qed.

(** After a swap was removed no event concerns it any more. *)
Theorem C41_closed_is_final (w w' : sworld) (ops : list sop) (before after : list sevent) (k id : Z) :
  no_accounts w -> Z.of_nat (length ops) < 2 ^ 64 -> srun w ops = (w', before ++ EClose k id :: after) ->
  Forall (fun e => ~ touches k id e) after.
Proof.
  intros Hn Hl Hr. pose proof (sinv_run ops w [] 0 w' _ (sinv_start w Hn) (Z.le_refl 0) Hl Hr) as I.
  rewrite app_nil_l in I. eapply quiet_split; [eapply si_quiet; exact I|reflexivity].
Qed.

Lemma done_false c q a b bb sb pre post : swap_done c q a b bb sb pre post = Some false ->
  k_bought c < k_max_buy c /\ k_sold c < k_max_sell c.
Proof.
  unfold swap_done. intros H.
  destruct (trade_amount _ _ _ _ _ _ _ _ _ _) as [[fbuy fsell]|] eqn:E; [|discriminate].
  apply trade_amount_some in E; [|unfold U64_MAX; lia|unfold U64_MAX; lia].
  destruct E as (A1 & A2 & _ & _ & A5 & A6 & _).
  destruct (chk_u64 _) as [u2|]; [|discriminate]. apply some_inj in H.
  destruct (Z.eqb_spec fbuy 0); [discriminate|]. destruct (Z.eqb_spec fsell 0); [discriminate|]. lia.
Qed.
(** A trigger that does not remove the swap leaves something to buy and something to
    sell: an exhausted swap is removed by the trigger that exhausts it. *)
Theorem C41_exhausted_is_closed (w w' : sworld) (lk rk : Z) (i : nat) (id mb ms mn : Z) (bp sp : fx) (q : quote) (h : hin) (now : Z)
  (ev : list sevent) :
  swap_trigger w lk rk i id mb ms mn bp sp q h now = Some (w', ev) -> ~ In (EClose lk id) ev ->
  exists a c, sw_accts w' lk = Some a /\ nth_error (s_swaps a) i = Some c /\ k_on c = true /\ k_id c = id /\
    k_bought c < k_max_buy c /\ k_sold c < k_max_sell c.
Proof.
  intros H Hno. apply trigger_inv in H as (_ & _ & _ & [H|H]).
  - destruct H as (? & ? & ? & ? & ? & ? & ? & _ & _ & _ & _ & _ & _ & _ & _ & _ & _ & ->). exfalso. apply Hno. left. reflexivity.
  - destruct H as [liqee liqor c bb sb e1 r1 r2 e2 ebp esp rbp rsp x st done bb' sb' f
      Hlr Hl Hr Hn Hon Hid _ _ _ _ _ _ _ _ _ _ _ _ _ _ _ _ _ _ _ _ _ _ _ _ Hd _ He2 -> ->].
    destruct done; [exfalso; apply Hno; right; left; reflexivity|]. apply done_false in Hd.
    cbv zeta in He2. apply some_inj in He2. apply pair_equal_spec in He2 as [He2 _]. apply pair_equal_spec in He2 as [<- _].
    eexists _, (set_progress c (k_bought c + x_buy x) (k_sold c + x_paid x) st).
    split; [cbn [sw_accts]; rewrite sput_ne by exact Hlr; apply sput_eq|].
    split; [cbn [set_swaps s_swaps]; rewrite nth_upd, Nat.eqb_refl, Hn; reflexivity|].
    split; [exact Hon|]. split; [exact Hid|]. exact Hd.
Qed.

(** ** C66: the amounts of a trigger *)
(** For a positive price the amounts are always defined, at that price, within both
    limits, and no feasible purchase would sell more. *)
Theorem C66_trade_amounts (mb ms : Z) (P : fx) : 0 <= mb <= U64_MAX -> 0 <= ms <= U64_MAX -> 0 < P ->
  exists buy sell, trade_amount_inner mb ms P = Some (buy, sell) /\ sell = buy * P / fone /\
    0 <= buy <= mb /\ 0 <= sell <= ms /\ (buy = 0 <-> sell = 0) /\
    (forall b, 0 <= b <= mb -> b * P / fone <= ms -> b * P / fone <= sell).
Proof.
  intros Hb Hs HP. destruct (inner_spec mb ms P Hb Hs HP) as (buy & sell & H1 & H2 & H3 & H4 & H5 & H6).
  exists buy, sell. split; [exact H1|]. split; [exact H2|]. split; [exact H3|]. split; [exact H4|]. split; [exact H5|].
  intros b B1 B2. apply H6. split; assumption.
Qed.
(** Above a price of one native token the purchase itself is the largest feasible one;
    up to that price it is the smallest that sells the same. *)
Theorem C66_trade_amounts_tight (mb ms : Z) (P : fx) (buy sell : Z) : 0 <= mb <= U64_MAX -> 0 <= ms <= U64_MAX -> 0 < P ->
  trade_amount_inner mb ms P = Some (buy, sell) ->
  (fone < P -> forall b, 0 <= b <= mb -> b * P / fone <= ms -> b <= buy) /\
  (P <= fone -> (buy - 1) * P < sell * fone <= buy * P).
Proof.
  intros Hb Hs HP H. split; intros HQ.
  - destruct (inner_above mb ms P Hb Hs HQ) as (b0 & E & _ & _ & M). rewrite E in H. injection H as <- _.
    intros b B1 B2. apply M. split; assumption.
  - destruct (inner_below mb ms P Hb Hs) as (b0 & E & _ & _ & _ & M1 & M2); [lia|]. rewrite E in H. apply some_inj in H.
    apply pair_equal_spec in H as [<- <-]. split; assumption.
Qed.
(** Every trigger pays at most the maker price, stays within the triggerer's limits
    and the swap's remaining amounts, and reaches the triggerer's minimum. *)
Theorem C66_trigger_price (w w' : sworld) (lk rk : Z) (i : nat) (id mb ms mn : Z) (bp sp : fx) (q : quote) (h : hin) (now buy paid : Z)
  (ev : list sevent) :
  swap_trigger w lk rk i id mb ms mn bp sp q h now = Some (w', ev) -> In (ETrigger lk id buy paid) ev ->
  paid * fone <= buy * q_maker q /\ mn <= buy <= mb /\ 0 <= paid <= ms /\ (0 < buy <-> 0 < paid) /\
  buy * q_premium q / fone <= paid.
Proof.
  intros H Hin. apply trigger_inv in H as (Hb & Hs & _ & [H|H]).
  - destruct H as (? & ? & ? & ? & ? & ? & ? & _ & _ & _ & _ & _ & _ & _ & _ & _ & _ & ->). destruct Hin as [|[]]; discriminate.
  - destruct H as [liqee liqor c bb sb e1 r1 r2 e2 ebp esp rbp rsp x st done bb' sb' f
      _ _ _ _ _ _ _ _ _ _ _ _ _ _ _ Hmn _ _ _ _ _ _ _ _ _ _ _ Hx _ _ _ _ _ _ ->].
    assert (E: buy = x_buy x /\ paid = x_paid x).
    { destruct Hin as [Hin|Hin]; [injection Hin as <- <-; auto|]. destruct done; [destruct Hin as [|[]]; discriminate|contradiction]. }
    destruct E as [-> ->]. pose proof Hx as Hx2. apply swap_trade_amounts in Hx; [|exact Hb|exact Hs].
    apply trade_amount_some in Hx; [|exact Hb|exact Hs]. destruct Hx as (A1 & A2 & A3 & A4 & _).
    split; [exact A3|]. split; [lia|]. split; [exact A2|]. split; [exact A4|].
    unfold swap_trade in Hx2. inv_opt Hx2. apply some_inj in Hx2. subst x. cbn [x_buy x_paid]. subst.
    repeat match goal with A : chk_u64 _ = Some _ |- _ => apply chk_u64_some in A as [-> A] end.
    rewrite !ffloor_to_int, !fmul_int_l in *. lia.
Qed.

(** ** C67 *)
(** What a trigger moves: the swap's owner receives the bought tokens and pays the
    sold ones, the triggerer the reverse less the taker fee; the fees of the two banks
    collect the difference and the loan origination fees; nothing else changes.
    Without permission to create deposits (borrows), or in reduce-only mode, the owner
    does not get into deposits (debt). *)
Theorem C67_trigger_moves (w w' : sworld) (lk rk : Z) (i : nat) (id mb ms mn : Z) (bp sp : fx) (q : quote) (h : hin) (now buy paid : Z)
  (rest : list sevent) (liqee liqor : sacct) (c : tcs) (bb sb : bank) :
  swap_trigger w lk rk i id mb ms mn bp sp q h now = Some (w', ETrigger lk id buy paid :: rest) ->
  sw_accts w lk = Some liqee -> sw_accts w rk = Some liqor -> nth_error (s_swaps liqee) i = Some c ->
  sw_banks w (k_buy c) = Some bb -> sw_banks w (k_sell c) = Some sb ->
  usable bb -> usable sb -> one_each liqee -> one_each liqor -> needed liqee (k_buy c) -> needed liqee (k_sell c) ->
  exists got fee_b fee_s,
    let sell := buy * q_premium q / fone in
    got = sell - sell * k_taker c / fone /\ 0 <= got <= sell /\ sell <= paid /\
    0 <= fee_b <= fmul (b_lof bb) (of_int buy) /\ 0 <= fee_s <= fmul (b_lof sb) (of_int paid) /\
    balance_moves w w' lk (k_buy c) bb (buy * token_unit) /\
    balance_moves w w' lk (k_sell c) sb (- paid * token_unit - fee_s * fone) /\
    balance_moves w w' rk (k_buy c) bb (- buy * token_unit - fee_b * fone) /\
    balance_moves w w' rk (k_sell c) sb (got * token_unit) /\
    fees_of w' (k_buy c) = fees_of w (k_buy c) + fee_b /\
    fees_of w' (k_sell c) = fees_of w (k_sell c) + fee_s + (paid - got) * fone /\
    (forall k t, (k <> lk /\ k <> rk) \/ (t <> k_buy c /\ t <> k_sell c) -> balance w' k t = balance w k t) /\
    (k_deps c = false \/ deposits_reduce_only bb = true ->
       balance w' lk (k_buy c) < Z.max (balance w lk (k_buy c)) token_unit + fone + slack bb) /\
    (k_bors c = false \/ borrows_reduce_only sb = true ->
       Z.min (balance w lk (k_sell c)) 0 <= balance w' lk (k_sell c) /\ fee_s = 0) /\
    (borrows_reduce_only bb = true -> Z.min (balance w rk (k_buy c)) 0 <= balance w' rk (k_buy c)).
Proof.
  intros H Hl Hr Hc Hbb Hsb Ub Us N1 N2 Nb Ns. apply trigger_inv in H as (Hb & Hs & _ & [H|H]).
  - destruct H as (? & ? & ? & ? & ? & ? & ? & _ & _ & _ & _ & _ & _ & _ & _ & _ & _ & E). discriminate.
  - destruct (traded_moves _ _ _ _ _ _ _ _ _ _ _ _ _ _ _ _ _ _ _ _ H Hb Hs Hl Hr Hc Hbb Hsb Ub Us N1 N2 Nb Ns)
      as (b' & p' & got & fb & fs & r' & E & M). injection E as -> -> _.
    destruct M as (M1 & M2 & M3 & _ & _ & M4 & M5 & M6 & M7 & M8 & M9 & M10 & M11 & M12 & _ & M13 & M14 & M15).
    exists got, fb, fs. cbv zeta in *. do 14 (split; [assumption|]). assumption.
Qed.

(** When a trigger may trade: the swap is not expired, the price is in its range
    (fixed premium) or the auction has started, the owner is not being liquidated and
    ends healthy or not worse, the triggerer is healthy. An expired swap is
    removed without trading. *)
Theorem C67_trigger_conditions (w w' : sworld) (lk rk : Z) (i : nat) (id mb ms mn : Z) (bp sp : fx) (q : quote) (h : hin) (now : Z)
  (ev : list sevent) :
  swap_trigger w lk rk i id mb ms mn bp sp q h now = Some (w', ev) ->
  exists a c, sw_accts w lk = Some a /\ nth_error (s_swaps a) i = Some c /\ k_on c = true /\ k_id c = id /\ lk <> rk /\
    (k_expiry c <= now -> ev = [EClose lk id]) /\
    (now < k_expiry c ->
      (exists buy paid rest, ev = ETrigger lk id buy paid :: rest) /\
      match k_type c with FixedPremium => q_in_range q = true | _ => 0 < k_start c <= now end /\
      q_taker_ok q = true /\ 0 <= hi_liqor h /\ (0 <= hi_post h \/ fceil (hi_pre h) <= fceil (hi_post h)) /\
      (s_flag a = false \/ - fone < hi_pre h \/ - fone < hi_pre_end h)).
Proof.
  intros H. assert (Hne: lk <> rk).
  { unfold swap_trigger in H. inv_opt H. match goal with A : negb (lk =? rk) = true |- _ => apply negb_true_iff, Z.eqb_neq in A; exact A end. }
  apply trigger_inv in H as (_ & _ & _ & [H|H]).
  - destruct H as (a & c & bb & sb & a' & bb' & sb' & Ha & Hc & Hon & Hid & Hex & _ & _ & _ & _ & _ & ->).
    exists a, c. do 5 (split; [assumption|]). split; [reflexivity|]. unfold is_expired in Hex. apply Z.leb_le in Hex. lia.
  - destruct H as [liqee liqor c bb sb e1 r1 r2 e2 ebp esp rbp rsp x st done bb' sb' f
      _ Hl _ Hn Hon Hid _ _ _ Hex Htr Htk Hpre Hpost Hli _ _ _ _ _ _ _ _ _ _ _ _ _ _ _ _ _ _ _ ->].
    exists liqee, c. do 5 (split; [assumption|]). unfold is_expired in Hex. apply Z.leb_gt in Hex. split; [lia|]. intros _.
    split; [do 3 eexists; reflexivity|]. split.
    { unfold check_triggerable in Htr. apply andb_prop in Htr as [_ Htr]. unfold passed_start in Htr.
      destruct (k_type c); [exact Htr| |]; apply andb_prop in Htr as [T1 T2]; apply Z.ltb_lt in T1; apply Z.leb_le in T2; lia. }
    split; [exact Htk|]. split; [exact Hli|]. split.
    { unfold post_check in Hpost. apply orb_prop in Hpost as [P|P]; [left; apply Z.leb_le; exact P|right].
      assert (M: forall u v, u <= v -> Fixed.fceil u <= Fixed.fceil v).
      { intros u v Huv. unfold Fixed.fceil. pose proof fone_pos. apply Z.mul_le_mono_nonneg_r; [lia|]. apply Z.opp_le_mono. rewrite !Z.opp_involutive. apply Z.div_le_mono; lia. }
      destruct (_ <? _); apply Z.leb_le in P; [exact P|apply M; exact P]. }
    unfold pre_check, recover in Hpre. destruct (s_flag liqee); [right|left; reflexivity]. cbn [andb] in Hpre.
    destruct (Z.ltb_spec (- fone) (hi_pre h)) as [N|N]; [left; exact N|right]. cbn [negb andb] in Hpre.
    destruct (Z.ltb_spec (- fone) (hi_pre_end h)) as [N2|N2]; [exact N2|]. cbn [negb] in Hpre. discriminate.
Qed.

(** Finding: a swap whose sell token is in deposits-reduce-only mode can never be
    triggered.  The check whether the swap is done asks for the amounts with an
    unbounded triggerer, whose sell balance is given as the smallest number; its
    negation overflows (trigger.rs:162 and :441). *)
Theorem C67_reduce_only_sell_refuted (w w' : sworld) (lk rk : Z) (i : nat) (id mb ms mn : Z) (bp sp : fx) (q : quote) (h : hin) (now buy paid : Z)
  (rest : list sevent) (a : sacct) (c : tcs) (sb : bank) :
  sw_accts w lk = Some a -> nth_error (s_swaps a) i = Some c -> sw_banks w (k_sell c) = Some sb -> usable sb -> deposits_reduce_only sb = true ->
  (forall bb, sw_banks w (k_buy c) = Some bb -> usable bb) ->
  swap_trigger w lk rk i id mb ms mn bp sp q h now <> Some (w', ETrigger lk id buy paid :: rest).
Proof.
  intros Ha Hc Hsb Us Hr Ub H. apply trigger_inv in H as (Hb & Hs & _ & [H|H]).
  - destruct H as (? & ? & ? & ? & ? & ? & ? & _ & _ & _ & _ & _ & _ & _ & _ & _ & _ & E). discriminate.
  - destruct H as [liqee liqor c' bb sb' e1 r1 r2 e2 ebp esp rbp rsp x st done bb' sb'' f
      _ Hl _ Hn _ _ Hbb Hsb' _ _ _ _ _ _ _ _ _ _ _ _ _ _ _ _ _ _ _ Hx _ _ Hd _ _ _ _].
    rewrite Ha in Hl. injection Hl as ->. rewrite Hc in Hn. injection Hn as ->. rewrite Hsb in Hsb'. injection Hsb' as ->.
    apply swap_trade_spec in Hx; [|exact (Ub _ Hbb)|exact Us|exact Hb|exact Hs].
    destruct Hx as (fb & fs & e & s & _ & _ & _ & _ & _ & _ & (_ & _ & _ & R) & _).
    revert Hd. unfold swap_done, trade_amount.
    assert (E: deposits_reduce_only (x_sb x) = true) by (unfold deposits_reduce_only in *; rewrite R; exact Hr).
    rewrite E. change (fneg fx_min) with (@None fx).
    destruct (max_buy_for_position _ _ _); [|discriminate]. destruct (max_sell_for_position _ _ _); discriminate.
Qed.

(** ** a history: account 1 holds 1000 of token 7 and wants 500 of token 8; account 2
    holds 800 of token 8 *)
Definition xd (n : Z) : fx := n * fone / 1000000.   (* indexed value: the index is 1000000 *)
Definition xbank (dep : Z) : bank := set_totals ex_bank (xd dep) 0 0 0.
Definition xsetup : sop :=
  SOther (fun t => if t =? 7 then Some (xbank 1000) else if t =? 8 then Some (xbank 800) else None)
         (fun k => if k =? 1 then [(7, mkTpos (xd 1000) 0)] else [(8, mkTpos (xd 800) 0)]) (fun _ => false).
Definition xargs : create_args := mkCa 500 600 1000 8 7 true false FixedPremium 0 (fone / 100) true.
(** one sell token per buy token, premium 10%, maker fee on top *)
Definition xquote : quote := mkQuote (fone * 11 / 10) (fone * 12 / 10) true 1 true true.
Definition xhin : hin := mkHin (of_int 100) (of_int 100) (of_int 2000000) (of_int 5).
Definition xops : list sop :=
  [SAccountNew 1 4 2; SAccountNew 2 4 2; xsetup; SCreate 1 xargs 10;
   STrigger 1 2 0 0 200 1000 1 fone fone xquote xhin 20;
   STrigger 1 2 0 0 400 1000 1 fone fone xquote xhin 30;
   STrigger 1 2 0 0 400 1000 1 fone fone xquote xhin 40;
   SCreate 1 xargs 50; SCancel 1 0 1 8 7 60].
Definition xworld : sworld := mkSw (fun _ => None) (fun _ => None).
Example C41_nonvacuous : exists w',
  no_accounts xworld /\ srun xworld xops =
    (w', [ECreate 1 0 500 600; ETrigger 1 0 200 239; ETrigger 1 0 300 359; EClose 1 0; ECreate 1 1 500 600; EClose 1 1]) /\
  total_bought 1 0 (snd (srun xworld xops)) = 500 /\ total_sold 1 0 (snd (srun xworld xops)) = 598.
Proof.
  eexists (fst (srun xworld xops)). split; [intros k; reflexivity|]. split; [vm_compute; reflexivity|].
  split; vm_compute; reflexivity.
Qed.
Example C41_slots_nonvacuous : exists a c,
  sw_accts (fst (srun xworld (firstn 5 xops))) 1 = Some a /\ nth_error (s_swaps a) 0 = Some c /\ k_on c = true /\
  k_bought c = 200 /\ k_sold c = 239 /\ k_max_buy c = 500.
Proof.
  eexists _, _. split; [vm_compute; reflexivity|]. split; [vm_compute; reflexivity|]. split; [reflexivity|]. split; [reflexivity|]. split; reflexivity.
Qed.

Example C66_nonvacuous : trade_amount_inner 400 361 (fone * 12 / 10) = Some (301, 361)
  /\ trade_amount_inner 1000 99 (fone / 3) = Some (298, 99).
Proof. split; vm_compute; reflexivity. Qed.

Definition xw4 : sworld := fst (srun xworld (firstn 4 xops)).
Example C67_nonvacuous : exists w' liqee liqor c bb sb,
  swap_trigger xw4 1 2 0 0 200 1000 1 fone fone xquote xhin 20 = Some (w', [ETrigger 1 0 200 239]) /\
  sw_accts xw4 1 = Some liqee /\ sw_accts xw4 2 = Some liqor /\ nth_error (s_swaps liqee) 0 = Some c /\
  sw_banks xw4 (k_buy c) = Some bb /\ sw_banks xw4 (k_sell c) = Some sb /\
  usable bb /\ usable sb /\ one_each liqee /\ one_each liqor /\ needed liqee (k_buy c) /\ needed liqee (k_sell c) /\
  opened w' 1 8 = true /\ fees_of w' 7 = (239 - 217) * fone.
Proof.
  eexists (fst (match swap_trigger xw4 1 2 0 0 200 1000 1 fone fone xquote xhin 20 with Some p => p | None => (xw4, []) end)), _, _, _, _, _.
  split; [vm_compute; reflexivity|]. split; [vm_compute; reflexivity|]. split; [vm_compute; reflexivity|]. split; [vm_compute; reflexivity|].
  split; [vm_compute; reflexivity|]. split; [vm_compute; reflexivity|].
  split; [split; [|split]; (apply Z.ltb_lt || apply Z.leb_le); vm_compute; reflexivity|].
  split; [split; [|split]; (apply Z.ltb_lt || apply Z.leb_le); vm_compute; reflexivity|].
  split; [unfold one_each; cbn; repeat constructor; cbn; intuition discriminate|].
  split; [unfold one_each; cbn; repeat constructor; cbn; intuition discriminate|].
  split; [eexists; split; [vm_compute; reflexivity|reflexivity]|].
  split; [eexists; split; [vm_compute; reflexivity|reflexivity]|].
  split; vm_compute; reflexivity.
Qed.
(** the triggerer owes 900 of token 7, so that it could still receive some of it in
    deposits-reduce-only mode; the trigger works in normal mode (0) and in borrows-reduce-only
    mode (2), but not in mode 1 *)
Definition xmode (m : Z) : sop :=
  SOther (fun t => match sw_banks xw4 t with
                   | Some b => Some (if t =? 7 then mkBank (b_di b) (b_bi b) (b_dep b) (xd 900) (b_dust b) (b_fees b) (b_lof b) (b_win_start b)
                        (b_win_size b) (b_win_net b) (b_win_limit b) (b_stable b) (b_dep_limit b) (b_serum b) m (b_max_util b) (b_upd b) (b_par b) (b_fw b) else b)
                   | None => None end)
         (fun k => match sw_accts xw4 k with Some a => s_pos a ++ (if k =? 2 then [(7, mkTpos (xd (-900)) 0)] else []) | None => [] end) (fun _ => false).
Definition xtrigger (m : Z) : option (list sevent) :=
  match swap_trigger (fst (srun xw4 [xmode m])) 1 2 0 0 200 1000 1 fone fone xquote xhin 20 with Some (_, ev) => Some ev | None => None end.
Example C67_reduce_only_witness :
  xtrigger 0 = Some [ETrigger 1 0 200 239] /\ xtrigger 2 = Some [ETrigger 1 0 200 239] /\ xtrigger 1 = None.
Proof. split; [vm_compute; reflexivity|]. split; vm_compute; reflexivity. Qed.

Print Assumptions C41_totals.
Print Assumptions C41_slots.
Print Assumptions C41_closed_is_final.
Print Assumptions C41_exhausted_is_closed.
Print Assumptions C66_trade_amounts.
Print Assumptions C66_trade_amounts_tight.
Print Assumptions C66_trigger_price.
Print Assumptions C67_trigger_moves.
Print Assumptions C67_trigger_conditions.
Print Assumptions C67_reduce_only_sell_refuted.
