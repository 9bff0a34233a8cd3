(** Facts about conditional swaps. *)
From Coq Require Import List ZArith Lia Bool.
From Verif Require Import Health HealthSpec LiqState OrderTree Keys PerpTypes Interest Bank BankFacts BankSystem Fixed Tcs.
Import ListNotations.
Open Scope Z_scope.

Lemma ffloor_to_int x : to_int (ffloor x) = x / fone.
Proof. unfold ffloor, to_int. apply Z.div_mul. discriminate. Qed.
Lemma fceil_to_int x : to_int (fceil x) = ceil_int x.
Proof. unfold fceil, ceil_int, to_int. apply Z.div_mul. discriminate. Qed.
Lemma chk_u64_in n : 0 <= n <= U64_MAX -> chk_u64 n = Some n.
Proof. unfold chk_u64. intros [H1 H2]. apply Z.leb_le in H1, H2. rewrite H1, H2. reflexivity. Qed.
Lemma chk_u64_some n m : chk_u64 n = Some m -> m = n /\ 0 <= n <= U64_MAX.
Proof.
  unfold chk_u64. destruct ((0 <=? n) && (n <=? U64_MAX)) eqn:E; [|discriminate].
  apply andb_prop in E as [E1 E2]. apply Z.leb_le in E1, E2. intros H. injection H as <-. auto.
Qed.

Lemma some_inj {A} (x y : A) : Some x = Some y -> x = y.
Proof. intros H. injection H as H. exact H. Qed.

(** the traded amounts *)
Definition feasible (mb ms : Z) (P : fx) (b : Z) : Prop := 0 <= b <= mb /\ b * P / fone <= ms.

Lemma inner_above mb ms P : 0 <= mb <= U64_MAX -> 0 <= ms <= U64_MAX -> fone < P ->
  exists buy, trade_amount_inner mb ms P = Some (buy, buy * P / fone) /\ feasible mb ms P buy /\
    (buy = 0 <-> buy * P / fone = 0) /\
    (forall b, feasible mb ms P b -> b <= buy).
Proof.
  intros Hb Hs HP. unfold trade_amount_inner. assert (E: (fone <? P) = true) by (apply Z.ltb_lt; exact HP). rewrite E.
  pose proof fone_pos as F0.
  assert (Ec: cdiv (of_int ms + fone - 1) P = Some (fdiv (of_int ms + fone - 1) P)).
  { unfold cdiv. replace (P =? 0) with false; [reflexivity|]. symmetry. apply Z.eqb_neq. lia. }
  rewrite Ec. set (X := of_int ms + fone - 1). assert (HX: X = (ms + 1) * fone - 1) by (unfold X, of_int; ring).
  assert (Eb: to_int (ffloor (fdiv X P)) = X / P).
  { rewrite ffloor_to_int. unfold fdiv. rewrite Z.quot_div_nonneg; [|nia|lia].
    rewrite Z.div_div; [|lia|lia]. rewrite (Z.mul_comm P fone). rewrite (Z.mul_comm X fone).
    rewrite Z.div_mul_cancel_l; [reflexivity|lia|lia]. }
  rewrite Eb.
  assert (Hq: 0 <= X / P <= U64_MAX).
  { split; [apply Z.div_pos; nia|]. apply Z.lt_succ_r. apply Z.div_lt_upper_bound; [lia|].
    unfold Z.succ. rewrite HX. assert ((ms + 1) * fone <= (U64_MAX + 1) * fone) by nia. nia. }
  rewrite (chk_u64_in _ Hq). set (buy := Z.min mb (X / P)). rewrite ffloor_to_int, fmul_int_l.
  assert (Hle: forall b, b <= X / P -> b * P / fone <= ms).
  { intros b Hbq. assert (b * P <= X).
    { pose proof (Z.mul_div_le X P). nia. }
    apply Z.lt_succ_r. apply Z.div_lt_upper_bound; [lia|]. unfold Z.succ. lia. }
  assert (Hb0: 0 <= buy <= mb) by (unfold buy; lia).
  assert (Hfs: 0 <= buy * P / fone <= ms) by (split; [apply Z.div_pos; nia|apply Hle; unfold buy; lia]).
  rewrite (chk_u64_in (buy * P / fone)); [|lia]. rewrite (Z.min_r ms (buy * P / fone)); [|lia].
  assert (Hz: 0 < buy <-> 0 < buy * P / fone).
  { split; intros Hx; [apply Z.div_str_pos; nia|].
    destruct (Z.eq_dec buy 0) as [e|]; [rewrite e in Hx; cbn in Hx; lia|lia]. }
  assert (Eg: Bool.eqb (0 <? buy) (0 <? buy * P / fone) = true).
  { destruct (Z.ltb_spec 0 buy), (Z.ltb_spec 0 (buy * P / fone)); try reflexivity; lia. }
  rewrite Eg. cbn [guard]. exists buy. split; [reflexivity|]. split; [split; [exact Hb0|apply Hfs]|]. split; [lia|].
  intros b [Hbb Hbs]. unfold buy. apply Z.min_glb; [lia|].
  apply Z.div_le_lower_bound; [lia|].
  assert (b * P < (ms + 1) * fone).
  { pose proof (Z.div_mod (b * P) fone ltac:(lia)). pose proof (Z.mod_pos_bound (b * P) fone F0). nia. }
  nia.
Qed.

Lemma inner_below mb ms P : 0 <= mb <= U64_MAX -> 0 <= ms <= U64_MAX -> 0 < P <= fone ->
  exists buy, let sell := Z.min (mb * P / fone) ms in
    trade_amount_inner mb ms P = Some (buy, sell) /\ sell = buy * P / fone /\ 0 <= buy <= mb /\
    (buy = 0 <-> sell = 0) /\ sell * fone <= buy * P /\ (buy - 1) * P < sell * fone.
Proof.
  intros Hb Hs HP. unfold trade_amount_inner. assert (E: (fone <? P) = false) by (apply Z.ltb_ge; lia). rewrite E.
  pose proof fone_pos as F0.
  set (A := Z.min (mb * P / fone) ms).
  assert (EA: Z.min (ffloor (fmul (of_int mb) P)) (of_int ms) = A * fone).
  { rewrite fmul_int_l. unfold ffloor, of_int, A. nia. }
  rewrite EA.
  assert (Ec: cdiv (A * fone) P = Some (fdiv (A * fone) P)).
  { unfold cdiv. replace (P =? 0) with false; [reflexivity|]. symmetry. apply Z.eqb_neq. lia. }
  rewrite Ec, fceil_to_int. set (q := fdiv (A * fone) P). set (c := ceil_int q).
  assert (HA: 0 <= A) by (unfold A; apply Z.min_glb; [apply Z.div_pos; nia|lia]).
  assert (HAm: A * fone <= mb * P).
  { pose proof (Z.mul_div_le (mb * P) fone). assert (A <= mb * P / fone) by (unfold A; lia). nia. }
  assert (Hq: 0 <= q /\ q * P <= A * fone * fone < q * P + P).
  { unfold q. split; [apply fdiv_nonneg; nia|]. apply Fixed.fdiv_pos_bounds; nia. }
  pose proof (ceil_int_bounds q) as [Hc1 Hc2]. fold c in Hc1, Hc2. unfold of_int in Hc1, Hc2.
  assert (H1: (c - 1) * P < A * fone).
  { assert ((c - 1) * fone * P < A * fone * fone) by nia. nia. }
  assert (H2: A * fone <= c * P).
  { assert (A * fone * fone - P < c * fone * P) by nia.
    assert ((A * fone - 1) * fone < c * P * fone) by nia. nia. }
  assert (Hc0: 0 <= c <= mb) by (split; nia).
  rewrite (chk_u64_in c); [|lia]. rewrite (Z.min_r mb c); [|lia]. rewrite ffloor_to_int, fmul_int_l.
  assert (Es: c * P / fone = A).
  { symmetry. apply (Z.div_unique _ _ _ (c * P - A * fone)); [left; nia|ring]. }
  assert (HAu: A <= ms) by (unfold A; lia).
  rewrite Es, (chk_u64_in A); [|lia]. rewrite (Z.min_r ms A); [|lia].
  assert (Hz: 0 < c <-> 0 < A) by (split; nia).
  assert (Eg: Bool.eqb (0 <? c) (0 <? A) = true).
  { destruct (Z.ltb_spec 0 c), (Z.ltb_spec 0 A); try reflexivity; lia. }
  rewrite Eg. cbn [guard]. exists c. cbv zeta. repeat (split; [first [reflexivity|lia]|]). lia.
Qed.

Lemma inner_spec mb ms P : 0 <= mb <= U64_MAX -> 0 <= ms <= U64_MAX -> 0 < P ->
  exists buy sell, trade_amount_inner mb ms P = Some (buy, sell) /\ sell = buy * P / fone /\
    0 <= buy <= mb /\ 0 <= sell <= ms /\ (buy = 0 <-> sell = 0) /\
    (forall b, feasible mb ms P b -> b * P / fone <= sell).
Proof.
  intros Hb Hs HP. pose proof fone_pos as F0. destruct (Z_lt_le_dec fone P) as [H|H].
  - destruct (inner_above mb ms P Hb Hs H) as (buy & E & [Hf1 Hf2] & Hz & Hm).
    exists buy, (buy * P / fone). split; [exact E|]. split; [reflexivity|]. split; [exact Hf1|].
    split; [split; [apply Z.div_pos; nia|exact Hf2]|]. split; [exact Hz|].
    intros b Hfb. apply Z.div_le_mono; [lia|]. specialize (Hm b Hfb). nia.
  - destruct (inner_below mb ms P Hb Hs (conj HP H)) as (buy & E & Es & Hb2 & Hz & H1 & H2).
    exists buy, (Z.min (mb * P / fone) ms). split; [exact E|]. split; [exact Es|]. split; [exact Hb2|].
    split; [split; [rewrite Es; apply Z.div_pos; nia|lia]|]. split; [exact Hz|].
    intros b [Hfb1 Hfb2]. apply Z.min_glb; [apply Z.div_le_mono; nia|exact Hfb2].
Qed.

(** whatever the price: a result is within the limits *)
Lemma inner_some mb ms P buy sell : 0 <= mb -> 0 <= ms -> trade_amount_inner mb ms P = Some (buy, sell) ->
  0 <= buy <= mb /\ 0 <= sell <= ms /\ sell * fone <= buy * P /\ (0 < buy <-> 0 < sell).
Proof.
  intros Hmb Hms. unfold trade_amount_inner. intros H.
  destruct (if fone <? P then _ else _) as [x|]; [|discriminate].
  destruct (chk_u64 x) as [y|] eqn:E1; [|discriminate].
  destruct (chk_u64 (to_int (ffloor (fmul (of_int (Z.min mb y)) P)))) as [z|] eqn:E2; [|discriminate].
  destruct (guard _) as [[]|] eqn:G; [|discriminate]. apply guard_some in G.
  injection H as <- <-. apply chk_u64_some in E1 as [-> E1]. apply chk_u64_some in E2 as [-> E2].
  rewrite ffloor_to_int, fmul_int_l in *. apply eqb_prop in G.
  pose proof (Z.mul_div_le (Z.min mb x * P) fone fone_pos).
  set (z := Z.min mb x * P / fone) in *. clearbody z.
  assert (Hz: Z.min ms z * fone <= z * fone) by (apply Z.mul_le_mono_nonneg_r; [pose proof fone_pos|]; lia).
  destruct (Z.ltb_spec 0 (Z.min mb x)), (Z.ltb_spec 0 (Z.min ms z)); try discriminate G;
    (split; [lia|]; split; [lia|]; split; [lia|lia]).
Qed.

Lemma clamp_u64_range x : 0 <= clamp_u64 x <= U64_MAX.
Proof.
  unfold clamp_u64. destruct (Z.leb_spec x 0); [unfold U64_MAX; lia|].
  destruct (Z.leb_spec (of_int U64_MAX) x); [unfold U64_MAX; lia|].
  unfold to_int. split; [apply Z.div_pos; [lia|reflexivity]|].
  apply Z.lt_le_incl. apply Z.div_lt_upper_bound; [reflexivity|]. unfold of_int in *. lia.
Qed.
Lemma clamp_floor x : of_int (clamp_u64 (ffloor x)) <= Z.max x 0.
Proof.
  pose proof fone_pos as F0. pose proof (Z.mul_div_le x fone F0).
  unfold clamp_u64. destruct (Z.leb_spec (ffloor x) 0); [change (of_int 0) with 0; lia|].
  destruct (Z.leb_spec (of_int U64_MAX) (ffloor x)); [unfold ffloor in *; lia|].
  rewrite ffloor_to_int. unfold of_int. lia.
Qed.
Lemma clamp_ceil x : of_int (clamp_u64 (fceil x)) < Z.max x 0 + fone.
Proof.
  pose proof fone_pos as F0. pose proof (ceil_int_bounds x) as [B1 B2].
  unfold clamp_u64. destruct (Z.leb_spec (fceil x) 0); [change (of_int 0) with 0; lia|].
  destruct (Z.leb_spec (of_int U64_MAX) (fceil x)).
  - unfold fceil, ceil_int, of_int in *. lia.
  - rewrite fceil_to_int. unfold of_int in *. lia.
Qed.

(** the limits that position and reduce-only mode put on the trade *)
Lemma trade_amount_some c P mb ms eb es rb rs bb sb buy sell : 0 <= mb <= U64_MAX -> 0 <= ms <= U64_MAX ->
  trade_amount c P mb ms eb es rb rs bb sb = Some (buy, sell) ->
  0 <= buy <= mb /\ 0 <= sell <= ms /\ sell * fone <= buy * P /\ (0 < buy <-> 0 < sell) /\
  k_bought c + buy <= k_max_buy c /\ k_sold c + sell <= k_max_sell c /\
  (k_deps c = false \/ deposits_reduce_only bb = true -> of_int buy < Z.max (- eb) 0 + fone) /\
  (k_bors c = false \/ borrows_reduce_only sb = true -> of_int sell <= Z.max es 0) /\
  (borrows_reduce_only bb = true -> of_int buy <= Z.max rb 0) /\
  (deposits_reduce_only sb = true -> of_int sell < Z.max (- rs) 0 + fone).
Proof.
  intros Hmb Hms. unfold trade_amount, max_buy_for_position, max_sell_for_position, remaining_buy, remaining_sell. intros H.
  destruct (chk_u64 (k_max_buy c - k_bought c)) as [x|] eqn:E1; [|discriminate].
  apply chk_u64_some in E1 as [-> E1].
  destruct (if k_deps c && negb (deposits_reduce_only bb) then _ else _) as [lim|] eqn:El; [|discriminate].
  destruct (chk_u64 (k_max_sell c - k_sold c)) as [x|] eqn:E2; [|discriminate].
  apply chk_u64_some in E2 as [-> E2].
  set (lb := if borrows_reduce_only bb then _ else _) in *.
  destruct (if deposits_reduce_only sb then _ else _) as [ls|] eqn:Els; [|discriminate].
  set (msl := if k_bors c && negb (borrows_reduce_only sb) then _ else _) in *.
  assert (U0: 0 <= U64_MAX) by (unfold U64_MAX; lia).
  assert (Hlim: 0 <= lim /\ (k_deps c = false \/ deposits_reduce_only bb = true -> of_int lim < Z.max (- eb) 0 + fone)).
  { unfold fneg in El. destruct (k_deps c); cbn [andb] in El; [destruct (deposits_reduce_only bb)|]; cbn [negb] in El.
    - destruct (eb =? fx_min); [discriminate|]. injection El as <-. split; [apply clamp_u64_range|intros _; apply clamp_ceil].
    - injection El as <-. split; [exact U0|]. intros [|]; discriminate.
    - destruct (eb =? fx_min); [discriminate|]. injection El as <-. split; [apply clamp_u64_range|intros _; apply clamp_ceil]. }
  assert (Hls: 0 <= ls /\ (deposits_reduce_only sb = true -> of_int ls < Z.max (- rs) 0 + fone)).
  { unfold fneg in Els. destruct (deposits_reduce_only sb).
    - destruct (rs =? fx_min); [discriminate|]. injection Els as <-. split; [apply clamp_u64_range|intros _; apply clamp_ceil].
    - injection Els as <-. split; [exact U0|]. discriminate. }
  assert (Hlb: 0 <= lb /\ (borrows_reduce_only bb = true -> of_int lb <= Z.max rb 0)).
  { unfold lb. destruct (borrows_reduce_only bb); [|split; [exact U0|discriminate]].
    split; [apply clamp_u64_range|intros _; apply clamp_floor]. }
  assert (Hmsl: 0 <= msl /\ (k_bors c = false \/ borrows_reduce_only sb = true -> of_int msl <= Z.max es 0)).
  { unfold msl. destruct (k_bors c); cbn [andb]; [destruct (borrows_reduce_only sb)|]; cbn [negb].
    - split; [apply clamp_u64_range|intros _; apply clamp_floor].
    - split; [exact U0|]. intros [|]; discriminate.
    - split; [apply clamp_u64_range|intros _; apply clamp_floor]. }
  clearbody lb msl. destruct Hlim as [Hl0 Hl1], Hls as [Hs0 Hs1], Hlb as [Hb0 Hb1], Hmsl as [Hm0 Hm1].
  apply inner_some in H; [|lia|lia]. destruct H as (H1 & H2 & H3 & H4).
  assert (Hmono: forall u v, u <= v -> of_int u <= of_int v) by (intros; apply of_int_le; assumption).
  split; [lia|]. split; [lia|]. split; [exact H3|]. split; [exact H4|]. split; [lia|]. split; [lia|].
  split; [intros Hc; specialize (Hl1 Hc); assert (of_int buy <= of_int lim) by (apply Hmono; lia); lia|].
  split; [intros Hc; specialize (Hm1 Hc); assert (of_int sell <= of_int msl) by (apply Hmono; lia); lia|].
  split; [intros Hc; specialize (Hb1 Hc); assert (of_int buy <= of_int lb) by (apply Hmono; lia); lia|].
  intros Hc; specialize (Hs1 Hc); assert (of_int sell <= of_int ls) by (apply Hmono; lia); lia.
Qed.

(** ** what a step does to the swaps *)
Lemma guard_true b u : guard b = Some u -> b = true.
Proof. destruct b; [reflexivity|discriminate]. Qed.
Ltac inv_opt H :=
  repeat match type of H with
  | match guard ?b with _ => _ end = Some _ =>
      let G := fresh "G" in destruct (guard b) eqn:G; [apply guard_true in G|discriminate H]
  | match ?x with Some _ => _ | None => None end = Some _ =>
      let G := fresh "O" in destruct x eqn:G; [|discriminate H]
  | (let (_, _) := ?x in _) = Some _ => let G := fresh "P" in destruct x eqn:G
  end.

Definition keeps (a a' : sacct) : Prop := s_swaps a' = s_swaps a /\ s_next a' = s_next a.
Lemma keeps_trans a b c : keeps a b -> keeps b c -> keeps a c.
Proof. unfold keeps. intros [-> ->] [-> ->]. auto. Qed.
Lemma keeps_refl a : keeps a a. Proof. split; reflexivity. Qed.
Lemma keeps_pos a l : keeps a (set_pos a l). Proof. split; reflexivity. Qed.
Lemma sensure_keeps a t a' : sensure a t = Some a' -> keeps a a'.
Proof.
  unfold sensure. destruct (pos_get (s_pos a) t); [intros H; injection H as <-; apply keeps_refl|].
  destruct (Nat.ltb _ _); [|discriminate]. intros H; injection H as <-. apply keeps_pos.
Qed.
Lemma sdeactivate_keeps a t a' : sdeactivate a t = Some a' -> keeps a a'.
Proof. unfold sdeactivate. intros H. inv_opt H. injection H as <-. apply keeps_pos. Qed.
Lemma srelease_keeps a t b now a' b' : srelease a t b now = Some (a', b') -> keeps a a'.
Proof.
  unfold srelease. destruct (pos_get (s_pos a) t); [|intros H; injection H as <- <-; apply keeps_refl].
  intros H. inv_opt H. injection H as <- <-. destruct b0; [injection O0 as <-; apply keeps_pos|].
  apply sdeactivate_keeps in O0. eapply keeps_trans; [apply keeps_pos|exact O0].
Qed.
Lemma suse_keeps a t a' : suse a t = Some a' -> keeps a a'.
Proof.
  unfold suse. intros H. inv_opt H. injection H as <-. apply sensure_keeps in O.
  eapply keeps_trans; [exact O|apply keeps_pos].
Qed.
Lemma release_both_keeps a bt st bb sb now a' bb' sb' : release_both a bt st bb sb now = Some (a', bb', sb') -> keeps a a'.
Proof.
  unfold release_both. intros H. inv_opt H. injection H as <- <- <-. subst.
  eapply keeps_trans; eapply srelease_keeps; eassumption.
Qed.
Lemma drop_keeps a t act a' : drop_if_inactive a t act = Some a' -> keeps a a'.
Proof. unfold drop_if_inactive. destruct act; [intros H; injection H as <-; apply keeps_refl|apply sdeactivate_keeps]. Qed.

Definition view (w : sworld) (k : Z) : option (list tcs * Z) :=
  match sw_accts w k with Some a => Some (s_swaps a, s_next a) | None => None end.
Definition only (v v' : Z -> option (list tcs * Z)) (k : Z) (x : list tcs * Z) : Prop :=
  forall k', v' k' = if k' =? k then Some x else v k'.

Inductive progress (k : Z) (c : tcs) : tcs -> list sevent -> Prop :=
| PrClose : progress k c tcs_default [EClose k (k_id c)]
| PrStart n st : 0 <= n -> k_sold c + n <= k_max_sell c ->
    progress k c (set_progress c (k_bought c) (k_sold c + n) st) [EStart k (k_id c) n]
| PrTrade b s st : 0 <= b -> 0 <= s -> k_bought c + b <= k_max_buy c -> k_sold c + s <= k_max_sell c ->
    progress k c (set_progress c (k_bought c + b) (k_sold c + s) st) [ETrigger k (k_id c) b s]
| PrTradeClose b s : 0 <= b -> 0 <= s -> k_bought c + b <= k_max_buy c -> k_sold c + s <= k_max_sell c ->
    progress k c tcs_default [ETrigger k (k_id c) b s; EClose k (k_id c)].

Inductive vstep (v v' : Z -> option (list tcs * Z)) (ev : list sevent) : Prop :=
| VSame : ev = [] -> (forall k, v' k = v k) -> vstep v v' ev
| VNew k ns : ev = [] -> v k = None -> only v v' k (repeat tcs_default ns, 0) -> vstep v v' ev
| VCreate k l n i c0 c : v k = Some (l, n) -> nth_error l i = Some c0 -> k_on c0 = false ->
    k_on c = true -> k_id c = n -> k_bought c = 0 -> k_sold c = 0 -> 0 <= k_max_buy c -> 0 <= k_max_sell c ->
    only v v' k (upd l i c, (n + 1) mod 2 ^ 64) -> ev = [ECreate k n (k_max_buy c) (k_max_sell c)] -> vstep v v' ev
| VProgress k l n i c c' : v k = Some (l, n) -> nth_error l i = Some c -> k_on c = true -> progress k c c' ev ->
    only v v' k (upd l i c', n) -> vstep v v' ev.

Lemma free_index_spec l i : free_index l = Some i -> exists c, nth_error l i = Some c /\ k_on c = false.
Proof.
  revert i. induction l as [|c l IH]; intros i H; [discriminate|]. cbn [free_index] in H.
  destruct (k_on c) eqn:E; [|injection H as <-; exists c; auto].
  destruct (free_index l) as [j|]; [|discriminate]. injection H as <-. destruct (IH j eq_refl) as (c' & ? & ?). exists c'. auto.
Qed.

Lemma only_put1 w banks k a l n : s_swaps a = l -> s_next a = n ->
  only (view w) (view (mkSw banks (sput (sw_accts w) k a))) k (l, n).
Proof. intros <- <- k'. unfold view, sput; cbn [sw_accts]. destruct (k' =? k); reflexivity. Qed.
Lemma only_put2 w banks k a r ar ar' l n : s_swaps a = l -> s_next a = n -> r <> k -> sw_accts w r = Some ar -> keeps ar ar' ->
  only (view w) (view (mkSw banks (sput (sput (sw_accts w) k a) r ar'))) k (l, n).
Proof.
  intros <- <- Hn Hr [K1 K2] k'. unfold view, sput; cbn [sw_accts]. destruct (Z.eqb_spec k' r) as [->|].
  - destruct (Z.eqb_spec r k); [contradiction|]. rewrite Hr, K1, K2. reflexivity.
  - destruct (k' =? k); reflexivity.
Qed.

Lemma create_vstep w k ca now w' ev : swap_create w k ca now = Some (w', ev) -> vstep (view w) (view w') ev.
Proof.
  unfold swap_create. intros H. inv_opt H.
  destruct (ca_expiry ca <=? now); [injection H as <- <-; apply VSame; auto|].
  inv_opt H. apply some_inj in H. apply pair_equal_spec in H as [<- <-].
  repeat match goal with O : suse _ _ = Some _ |- _ => apply suse_keeps in O end.
  match goal with A : keeps s ?x, B : keeps ?x ?y |- _ => destruct A as [K1 K2], B as [K3 K4] end.
  match goal with A : free_index _ = Some _ |- _ => apply free_index_spec in A as Hfree end. destruct Hfree as (c0 & Hn & Hoff).
  rewrite !andb_true_iff, !Z.leb_le in G.
  eapply (VCreate _ _ _ k (s_swaps s) (s_next s) n c0 (mkTcs true (s_next s1) (ca_max_buy ca) (ca_max_sell ca) 0 0 (ca_expiry ca) (ca_buy ca) (ca_sell ca)
               (ca_deps ca) (ca_bors ca) (ca_type ca) (match ca_type ca with LinearAuction => ca_start ca | _ => 0 end) (ca_taker ca)));
    cbn [k_on k_id k_bought k_sold k_max_buy k_max_sell].
  - unfold view. rewrite O. reflexivity.
  - rewrite <- K1, <- K3. eassumption.
  - exact Hoff.
  - reflexivity.
  - congruence.
  - reflexivity.
  - reflexivity.
  - apply G.
  - apply G.
  - apply only_put1; cbn [s_swaps s_next]; [rewrite K3, K1; reflexivity|rewrite K4, K2; reflexivity].
  - rewrite K4, K2. reflexivity.
Qed.

Lemma cancel_vstep w k i id bt st now w' ev : swap_cancel w k i id bt st now = Some (w', ev) -> vstep (view w) (view w') ev.
Proof.
  unfold swap_cancel. intros H. inv_opt H.
  destruct (k_on t) eqn:Eon; cbn [negb] in H; [|injection H as <- <-; apply VSame; auto].
  inv_opt H. apply some_inj in H. apply pair_equal_spec in H as [<- <-]. subst.
  apply release_both_keeps in O3 as [K1 K2]. cbn [set_swaps s_swaps s_next] in K1, K2.
  apply Z.eqb_eq in G0. subst id.
  eapply (VProgress _ _ _ k (s_swaps s) (s_next s) i t tcs_default); [|exact O0|exact Eon|apply PrClose|].
  - unfold view. rewrite O. reflexivity.
  - apply only_put1; assumption.
Qed.

Lemma start_vstep w lk rk i id price q h now w' ev : swap_start w lk rk i id price q h now = Some (w', ev) ->
  vstep (view w) (view w') ev.
Proof.
  unfold swap_start. intros H. inv_opt H. apply some_inj in H. apply pair_equal_spec in H as [<- <-]. subst.
  apply sensure_keeps in O7. apply andb_prop in G1 as [Hon Hid]. apply Z.eqb_eq in Hid. subst id.
  apply chk_u64_some in O10 as [-> R]. apply negb_true_iff, Z.eqb_neq in G.
  match goal with |- context [EStart _ _ ?n] => set (inc := n) in * end.
  match goal with G : (?x <=? k_max_sell t) = true |- _ => apply Z.leb_le in G; rename G into Gs end.
  eapply (VProgress _ _ _ lk (s_swaps s) (s_next s) i t (set_progress t (k_bought t) (k_sold t + inc) now));
    [|exact O1|exact Hon|apply PrStart; [apply clamp_u64_range|exact Gs]|].
  - unfold view. rewrite O. reflexivity.
  - eapply (only_put2 w _ lk _ rk s0); [reflexivity|reflexivity|auto|assumption|].
    eapply keeps_trans; [eassumption|apply keeps_pos].
Qed.

Lemma set_progress_id c b s st : k_id (set_progress c b s st) = k_id c. Proof. reflexivity. Qed.
Lemma swap_trade_amounts c q mb ms bb sb ebp esp rbp rsp bp sp now x : 0 <= mb <= U64_MAX -> 0 <= ms <= U64_MAX ->
  swap_trade c q mb ms bb sb ebp esp rbp rsp bp sp now = Some x ->
  trade_amount c (q_maker q) mb ms (native bb ebp) (native sb esp) (native bb rbp) (native sb rsp) bb sb = Some (x_buy x, x_paid x).
Proof.
  intros Hb Hs. unfold swap_trade. intros H. inv_opt H. apply some_inj in H. subst x. cbn [x_buy x_paid]. subst. first [reflexivity|eassumption].
Qed.

(** everything a trigger that trades does *)
Inductive traded (w : sworld) (lk rk : Z) (i : nat) (id mb ms mn : Z) (bp sp : fx) (q : quote) (h : hin) (now : Z)
  (w' : sworld) (ev : list sevent) : Prop :=
| Traded liqee liqor c bb sb e1 r1 r2 e2 ebp esp rbp rsp x st done bb' sb' f :
    lk <> rk -> sw_accts w lk = Some liqee -> sw_accts w rk = Some liqor ->
    nth_error (s_swaps liqee) i = Some c -> k_on c = true -> k_id c = id ->
    sw_banks w (k_buy c) = Some bb -> sw_banks w (k_sell c) = Some sb -> k_buy c <> k_sell c ->
    is_expired c now = false -> check_triggerable c q now = true -> q_taker_ok q = true ->
    pre_check (s_flag liqee) (hi_pre h) (hi_pre_end h) = Some f -> post_check (hi_pre h) (hi_post h) = true -> 0 <= hi_liqor h -> mn <= x_buy x ->
    keeps liqee e1 -> keeps liqor r1 -> s_flag e1 = s_flag liqee ->
    (let* a := sensure liqee (k_buy c) in sensure a (k_sell c)) = Some e1 ->
    (let* a := sensure liqor (k_buy c) in sensure a (k_sell c)) = Some r1 ->
    (forall t p, pos_get (s_pos liqee) t = Some p -> pos_get (s_pos e1) t = Some p) ->
    (forall t p, pos_get (s_pos liqor) t = Some p -> pos_get (s_pos r1) t = Some p) ->
    pos_get (s_pos e1) (k_buy c) = Some ebp -> pos_get (s_pos e1) (k_sell c) = Some esp ->
    pos_get (s_pos r1) (k_buy c) = Some rbp -> pos_get (s_pos r1) (k_sell c) = Some rsp ->
    swap_trade c q mb ms bb sb ebp esp rbp rsp bp sp now = Some x ->
    k_bought c + x_buy x <= k_max_buy c -> k_sold c + x_paid x <= k_max_sell c ->
    swap_done (set_progress c (k_bought c + x_buy x) (k_sold c + x_paid x) st) q
      (native (x_bb x) (x_ebp x)) (native (x_sb x) (x_esp x)) (x_bb x) (x_sb x) (hi_pre h) (hi_post h) = Some done ->
    (let* a1 := drop_if_inactive (set_pos r1 (pos_set (pos_set (s_pos r1) (k_buy c) (x_rbp x)) (k_sell c) (x_rsp x))) (k_buy c) (x_rb_act x) in
     drop_if_inactive a1 (k_sell c) (x_rs_act x)) = Some r2 ->
    (let a1 := set_flag (set_pos e1 (pos_set (pos_set (s_pos e1) (k_buy c) (x_ebp x)) (k_sell c) (x_esp x))) f in
     if done then release_both (set_swaps a1 (upd (s_swaps liqee) i tcs_default)) (k_buy c) (k_sell c) (x_bb x) (x_sb x) now
     else Some (set_swaps a1 (upd (s_swaps liqee) i (set_progress c (k_bought c + x_buy x) (k_sold c + x_paid x) st)), x_bb x, x_sb x))
      = Some (e2, bb', sb') ->
    w' = mkSw (sput (sput (sw_banks w) (k_buy c) bb') (k_sell c) sb') (sput (sput (sw_accts w) lk e2) rk r2) ->
    ev = ETrigger lk id (x_buy x) (x_paid x) :: (if done then [EClose lk id] else []) ->
    traded w lk rk i id mb ms mn bp sp q h now w' ev.

Lemma pos_get_app l l' t : pos_get (l ++ l') t = match pos_get l t with Some p => Some p | None => pos_get l' t end.
Proof. induction l as [|[u p] l IH]; [reflexivity|]. cbn [app pos_get]. destruct (u =? t); [reflexivity|exact IH]. Qed.
Lemma sensure_spec a t a' : sensure a t = Some a' ->
  keeps a a' /\ s_flag a' = s_flag a /\ (forall u p, pos_get (s_pos a) u = Some p -> pos_get (s_pos a') u = Some p).
Proof.
  intros H. split; [eapply sensure_keeps; eassumption|]. unfold sensure in H.
  destruct (pos_get (s_pos a) t) eqn:E; [injection H as <-; auto|].
  destruct (Nat.ltb _ _); [|discriminate]. injection H as <-. split; [reflexivity|].
  intros u p Hp. cbn [set_pos s_pos]. rewrite pos_get_app, Hp. reflexivity.
Qed.

Lemma trigger_inv w lk rk i id mb ms mn bp sp q h now w' ev :
  swap_trigger w lk rk i id mb ms mn bp sp q h now = Some (w', ev) ->
  0 <= mb <= U64_MAX /\ 0 <= ms <= U64_MAX /\ 0 <= mn /\
  ((exists liqee c bb sb liqee' bb' sb', sw_accts w lk = Some liqee /\ nth_error (s_swaps liqee) i = Some c /\
      k_on c = true /\ k_id c = id /\ is_expired c now = true /\ mn = 0 /\
      sw_banks w (k_buy c) = Some bb /\ sw_banks w (k_sell c) = Some sb /\
      release_both (set_swaps liqee (upd (s_swaps liqee) i tcs_default)) (k_buy c) (k_sell c) bb sb now = Some (liqee', bb', sb') /\
      w' = mkSw (sput (sput (sw_banks w) (k_buy c) bb') (k_sell c) sb') (sput (sw_accts w) lk liqee') /\ ev = [EClose lk id])
   \/ traded w lk rk i id mb ms mn bp sp q h now w' ev).
Proof.
  unfold swap_trigger. intros H. inv_opt H.
  apply negb_true_iff, Z.eqb_neq in G0. apply andb_prop in G2 as [Hon Hid]. apply Z.eqb_eq in Hid. subst id.
  rewrite !andb_true_iff, !Z.leb_le in G. split; [lia|]. split; [lia|]. split; [lia|].
  destruct (is_expired t now) eqn:Eexp.
  - left. inv_opt H. apply some_inj in H. apply pair_equal_spec in H as [<- <-]. subst.
    match goal with A : (_ =? 0) = true |- _ => apply Z.eqb_eq in A; subst mn end.
    do 7 eexists. do 8 (split; [first [reflexivity|eassumption]|]). split; [eassumption|]. split; reflexivity.
  - right. inv_opt H. apply some_inj in H. apply pair_equal_spec in H as [<- <-]. subst.
    assert (Ens1: (let* a := sensure s0 (k_buy t) in sensure a (k_sell t)) = Some s2).
    { match goal with A : sensure s0 _ = Some ?u |- _ => rewrite A end. assumption. }
    assert (Ens2: (let* a := sensure s (k_buy t) in sensure a (k_sell t)) = Some s4).
    { match goal with A : sensure s _ = Some ?u |- _ => rewrite A end. assumption. }
    repeat match goal with
    | A : sensure _ _ = Some _ |- _ => apply sensure_spec in A
    | A : chk_u64 _ = Some _ |- _ => apply chk_u64_some in A as [-> A]
    end.
    repeat match goal with
    | A : (_ && _) = true |- _ => apply andb_prop in A as [? ?]
    | A : (_ <=? _) = true |- _ => apply Z.leb_le in A
    | A : negb _ = true |- _ => apply negb_true_iff in A
    | A : (_ =? _) = false |- _ => apply Z.eqb_neq in A
    | A : _ /\ _ |- _ => destruct A
    end.
    assert (Ksw: s_swaps s2 = s_swaps s0).
    { match goal with A : keeps s0 s1, B : keeps s1 s2 |- _ => destruct A as [A1 _], B as [B1 _]; congruence end. }
    assert (Kf: s_flag s2 = s_flag s0) by congruence.
    eapply Traded with (e1 := s2) (r1 := s4) (f := b1) (x := t4) (done := b2);
      try eassumption; try reflexivity.
    + rewrite <- Kf. assumption.
    + eapply keeps_trans; eassumption.
    + eapply keeps_trans; eassumption.
    + auto.
    + auto.
    + rewrite O14. exact O15.
    + cbv zeta. cbn [set_flag set_pos s_swaps] in O19. rewrite Ksw in O19. exact O19.
Qed.

Lemma trigger_vstep w lk rk i id mb ms mn bp sp q h now w' ev :
  swap_trigger w lk rk i id mb ms mn bp sp q h now = Some (w', ev) -> vstep (view w) (view w') ev.
Proof.
  intros H. apply trigger_inv in H as (Hb & Hs & _ & [H|H]).
  - destruct H as (liqee & c & bb & sb & liqee' & bb' & sb' & Hl & Hn & Hon & Hid & _ & _ & _ & _ & R & -> & ->). subst id.
    apply release_both_keeps in R as [K1 K2].
    eapply (VProgress _ _ _ lk (s_swaps liqee) (s_next liqee) i c tcs_default); [|exact Hn|exact Hon|apply PrClose|].
    + unfold view. rewrite Hl. reflexivity.
    + apply only_put1; assumption.
  - destruct H as [liqee liqor c bb sb e1 r1 r2 e2 ebp esp rbp rsp x st done bb' sb' f
      Hlr Hl Hr Hn Hon Hid _ _ _ _ _ _ _ _ _ _ Ke Kr _ _ _ _ _ _ _ _ _ Hx Hbo Hso _ Hr2 He2 -> ->]. subst id.
    apply swap_trade_amounts in Hx; [|lia|lia]. apply trade_amount_some in Hx; [|lia|lia].
    destruct Hx as (X1 & X2 & _).
    set (c' := if done then tcs_default else set_progress c (k_bought c + x_buy x) (k_sold c + x_paid x) st).
    assert (Kr2: keeps r1 r2).
    { destruct (drop_if_inactive _ (k_buy c) (x_rb_act x)) as [a1|] eqn:D1; [|discriminate].
      apply drop_keeps in D1, Hr2. eapply keeps_trans; [apply keeps_pos|]. eapply keeps_trans; eassumption. }
    assert (Ke2: s_swaps e2 = upd (s_swaps liqee) i c' /\ s_next e2 = s_next liqee).
    { unfold c'. destruct Ke as [_ Kn]. destruct done.
      - apply release_both_keeps in He2 as [K1 K2]. split; [exact K1|rewrite K2; exact Kn].
      - cbv zeta in He2. apply some_inj in He2. apply pair_equal_spec in He2 as [He2 _]. apply pair_equal_spec in He2 as [<- _].
        split; [reflexivity|exact Kn]. }
    destruct Ke2 as [Ke2 Kn2].
    eapply (VProgress _ _ _ lk (s_swaps liqee) (s_next liqee) i c c'); [|exact Hn|exact Hon| |].
    + unfold view. rewrite Hl. reflexivity.
    + unfold c'. destruct done; [apply PrTradeClose; lia|apply PrTrade; lia].
    + eapply (only_put2 w _ lk _ rk liqor); [exact Ke2|exact Kn2|auto|exact Hr|eapply keeps_trans; eassumption].
Qed.

Lemma sstep_vstep w o w' ev : sstep w o = Some (w', ev) -> vstep (view w) (view w') ev.
Proof.
  destruct o; cbn [sstep]; intros H.
  - eapply create_vstep; eassumption.
  - eapply cancel_vstep; eassumption.
  - eapply start_vstep; eassumption.
  - eapply trigger_vstep; eassumption.
  - destruct (sw_accts w k) eqn:E; [discriminate|]. apply some_inj in H. apply pair_equal_spec in H as [<- <-].
    eapply (VNew _ _ _ k swaps); [reflexivity|unfold view; rewrite E; reflexivity|]. apply only_put1; reflexivity.
  - apply some_inj in H. apply pair_equal_spec in H as [<- <-]. apply VSame; [reflexivity|].
    intros k. unfold view. cbn [sw_accts]. destruct (sw_accts w k); reflexivity.
Qed.
