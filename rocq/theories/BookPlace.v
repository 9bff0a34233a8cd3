(** Summary of [new_order]: everything a successful call does. *)
From Coq Require Import List ZArith Lia Bool Arith Permutation Sorted.
From Verif Require Import OrderTree OrderTreeSpec KeyBits OrderTreeRep BookArena BookArenaProofs
  BookArenaFacts Keys Fixed BookSide BookSideSpec BookSideProofs BookSideView BookSideWorst EventQueue PerpTypes Book
  BookLoop BookApply.
Import ListNotations.
Open Scope Z_scope.

(** orders as the instructions build them: i64/u16 fields, perp_place_order.rs:17-18 *)
Definition order_wf (o : order) : Prop :=
  0 <= o_max_base o <= i64_max /\ 0 <= o_max_quote o <= i64_max /\ 0 <= o_tif o < 2 ^ 16 /\
  match o_params o with
  | PMarket => True
  | PIoc p | PFixed p _ => in_i64 p
  | PPegged off _ pl => in_i64 off /\ in_i64 pl
  end.
Definition clock_ok (now : Z) : Prop := 0 <= now /\ now + 2 ^ 16 <= u64_max.

(** invariant of a book side (maintained by all operations, see PerpSystem.v) *)
Definition side_ok (sd : side) (seq : Z) (b : lists) : Prop :=
  Forall fixed_ok (fst b) /\
  forall e, In e (all b) -> 0 < l_quantity (snd e) /\ 1 <= seqno sd (snd e) <= seq.

Lemma chk_i64_some x y : chk_i64 x = Some y -> y = x /\ in_i64 x.
Proof.
  unfold chk_i64, in_i64b, in_i64. destruct (Z.leb_spec i64_min x), (Z.leb_spec x i64_max); cbn; try discriminate.
  intros E; injection E as <-. auto.
Qed.

(** the limit price the user asked for *)
Definition requested_price (o : order) (oracle_lots : Z) : option Z :=
  match o_params o with
  | PMarket => None
  | PIoc p | PFixed p _ => Some p
  | PPegged off _ _ => Some (oracle_lots + off)
  end.
Definition no_worse (sd : side) (price limit : Z) : Prop := if sd then price <= limit else limit <= price.

Lemma pfot_ok o p ty best p' : price_for_order_type o p ty best = Some p' -> in_i64 p ->
  in_i64 p' /\ no_worse (o_side o) p' p /\
  (ty = PTPostOnlySlide -> forall b, best = Some b -> if o_side o then p' < b else b < p').
Proof.
  unfold price_for_order_type, slide_limit. intros H Hp.
  assert (Hsame : Some p = Some p' -> in_i64 p' /\ no_worse (o_side o) p' p).
  { intros E; injection E as <-. split; [exact Hp|]. unfold no_worse. destruct (o_side o); lia. }
  destruct ty; [split; [apply Hsame, H|split; [apply Hsame, H|discriminate]]..|].
  destruct best as [b|]; [|split; [apply Hsame, H|split; [apply Hsame, H|discriminate]]].
  destruct (o_side o).
  - destruct (chk_i64 (b - 1)) as [b'|] eqn:E; [|discriminate]. apply chk_i64_some in E as [-> E].
    injection H as <-. unfold in_i64, no_worse in *. split; [lia|]. split; [lia|].
    intros _ b0 E0. injection E0 as <-. lia.
  - destruct (chk_i64 (b + 1)) as [b'|] eqn:E; [|discriminate]. apply chk_i64_some in E as [-> E].
    injection H as <-. unfold in_i64, no_worse in *. split; [lia|]. split; [lia|].
    intros _ b0 E0. injection E0 as <-. lia.
Qed.

Definition is_pegged (o : order) : bool := match o_params o with PPegged _ _ _ => true | _ => false end.

Lemma order_price_ok o ol best price pd : order_price o ol best = Some (price, pd) ->
  order_wf o -> in_i64 ol ->
  1 <= price <= i64_max /\ 0 < pd <= u64_max /\
  pd = (if is_pegged o then price - ol + 2 ^ 63 else price) /\
  (forall rp, requested_price o ol = Some rp -> no_worse (o_side o) price rp) /\
  (o_params o = PMarket -> price = if o_side o then i64_max else 1).
Proof.
  unfold order_price, order_wf, requested_price, is_pegged. intros H (_ & _ & _ & Hw) Hol.
  set (pr := match o_params o with
     | PMarket => Some (if o_side o then i64_max else 1)
     | PIoc p => Some p
     | PFixed p ty => price_for_order_type o p ty best
     | PPegged off ty _ =>
         match chk_i64 (ol + off) with
         | None => None
         | Some p => price_for_order_type o p ty best
         end
     end) in H.
  destruct pr as [p|] eqn:Ep; [|discriminate].
  assert (Hp : in_i64 p /\
    (forall rp, match o_params o with
                | PMarket => None | PIoc p | PFixed p _ => Some p
                | PPegged off _ _ => Some (ol + off) end = Some rp -> no_worse (o_side o) p rp) /\
    (o_params o = PMarket -> p = if o_side o then i64_max else 1)).
  { unfold pr in Ep. destruct (o_params o) as [|pp|pp ty|off ty pl].
    - injection Ep as <-. split; [|split; [discriminate|reflexivity]].
      destruct (o_side o); unfold in_i64, i64_min, i64_max; lia.
    - injection Ep as <-. split; [exact Hw|]. split; [|discriminate]. intros rp E; injection E as <-.
      unfold no_worse. destruct (o_side o); lia.
    - apply pfot_ok in Ep as (H1 & H2 & _); [|exact Hw]. split; [exact H1|]. split; [|discriminate].
      intros rp E; injection E as <-. exact H2.
    - destruct (chk_i64 (ol + off)) as [p0|] eqn:E0; [|discriminate]. apply chk_i64_some in E0 as [-> E0].
      apply pfot_ok in Ep as (H1 & H2 & _); [|exact E0]. split; [exact H1|]. split; [|discriminate].
      intros rp E; injection E as <-. exact H2. }
  clearbody pr. destruct Hp as (Hpi & Hrp & Hmk).
  assert (Hfx : forall pd0, fixed_price_data p = Some pd0 ->
    (if 1 <=? p then Some (p, pd0) else None) = Some (price, pd) ->
    p = price /\ 1 <= price <= i64_max /\ 0 < pd <= u64_max /\ pd = price).
  { intros pd0 Ef E. unfold fixed_price_data in Ef. destruct (Z.leb_spec 1 p); [|discriminate].
    injection Ef as <-. injection E as <- <-. unfold as_u64, in_i64, i64_max, u64_max in *.
    rewrite Z.mod_small by lia. lia. }
  destruct (o_params o) as [|pp|pp ty|off ty pl].
  1-3: destruct (fixed_price_data p) as [pd0|] eqn:Ef; [|discriminate];
    destruct (Hfx pd0 eq_refl H) as (-> & H1 & H2 & ->); auto 6.
  destruct (chk_i64 (p - ol)) as [d|] eqn:Ed; [|discriminate]. apply chk_i64_some in Ed as [-> Ed].
  destruct (Z.leb_spec 1 p) as [Hp1|]; [|discriminate]. injection H as <- <-.
  rewrite pegged_data_eq by exact Ed.
  split; [unfold in_i64 in Hpi; lia|]. split; [unfold in_i64, i64_min, i64_max, u64_max in *; lia|].
  split; [lia|]. auto.
Qed.

(** *** runs *)
Lemma run_sums x rb rq d lm L rb' rq' d' lm' : run x rb rq d lm L rb' rq' d' lm' ->
  rb' = rb - sum_base L /\ rq' = rq - sum_quote L /\
  (0 <= rb -> 0 <= rb') /\ (0 <= rq -> 0 <= rq') /\
  lm = (lm' + length (filter is_fill L))%nat /\ d' = (d + length (filter is_drop L))%nat.
Proof.
  unfold sum_base, sum_quote.
  assert (E : forall i a, fq (i, a) = match a with AFill q => q | _ => 0 end) by reflexivity.
  induction 1; cbn [fold_right filter is_fill is_drop snd length fst]; rewrite ?E;
    intuition (try lia).
Qed.
Lemma run_dec_le x rb rq d lm L rb' rq' d' lm' : run x rb rq d lm L rb' rq' d' lm' ->
  Forall item_ok (map fst L) -> 0 <= sum_dec x L <= sum_quote L.
Proof.
  unfold sum_dec, sum_quote.
  assert (E : forall i a, fq (i, a) = match a with AFill q => q | _ => 0 end) by reflexivity.
  induction 1; cbn [fold_right map fst]; intros HF; [lia|..]; inversion HF as [|? ? Hi HF']; subst;
    specialize (IHrun HF'); rewrite ?E; try (destruct (own x i); lia).
  destruct Hi as [Hp _]. destruct (own x i); nia.
Qed.

(** *** the summary *)
Definition penalty_of (o : order) (mk : market) : fx := if needs_penalty o then mk_penalty mk else 0.
Definition fee_quote (x : mctx) (acts : list aitem) : fx :=
  of_int (mk_qls (x_market x) * (sum_quote acts - sum_dec x acts)).
Definition taker_fees (x : mctx) (acts : list aitem) : fx := fmul (fee_quote x acts) (mk_taker_fee (x_market x)).
Definition maker_fees (x : mctx) (acts : list aitem) : fx := fmul (fee_quote x acts) (mk_maker_fee (x_market x)).

Definition took (acts : list aitem) : bool := (0 <? sum_quote acts) || (0 <? sum_base acts).

Record placed (capo caps capq : nat) (bk : orderbook) (o : order) (mk : market) (q : evq) (oracle : fx)
  (a : account) (pk now : Z) (limit : nat) (r : place_result)
  (bo bs : lists) (Q : list event) (n : Z)
  (ol price pd id : Z) (x : mctx) (acts : list aitem) (rest : list item) (es : list entry) (rb rq : Z) (d lm : nat)
  (post' : option comp) (U : list entry) (bo' : lists) (removed R : list entry) (bs' : lists)
  (p2 : position) (post : option (comp * leaf)) : Prop := {
  pl_ol : native_price_to_lot mk oracle = Some ol /\ in_i64 ol;
  pl_items : bs_items (negb (o_side o)) (bk_get (negb (o_side o)) bk) now ol = Some (map fst acts ++ rest);
  pl_es : map fst acts ++ rest = map (item_of (negb (o_side o)) now ol) es;
  pl_perm : Permutation es (entries ol (fst bo) (snd bo));
  pl_sorted : StronglySorted (before (negb (o_side o)) ol) es;
  pl_U : U = map (pair true) (filter (fun l => negb (representable ol l)) (snd bo));
  pl_price : order_price o ol (best_price (filter item_valid (map fst acts ++ rest))) = Some (price, pd);
  pl_id : id = new_node_key (o_side o) pd (mk_seq mk + 1) /\ mk_seq mk + 1 <= u64_max;
  pl_x : x_order x = o /\ x_pk x = pk /\ x_now x = now /\ x_price x = price /\
         mk_qls (x_market x) = mk_qls mk /\ mk_maker_fee (x_market x) = mk_maker_fee mk /\
         mk_taker_fee (x_market x) = mk_taker_fee mk;
  pl_run : run x (o_max_base o) (o_max_quote o) 0 limit acts rb rq d lm;
  pl_stop : stopped x rest rb rq lm (post_target o) post';
  pl_opp : Permutation (all bo) (map entry_of (map fst acts ++ rest) ++ U);
  pl_opp_view : view (negb (o_side o)) capo (bk_get (negb (o_side o)) (r_book r)) bo';
  pl_opp' : Permutation (all bo') (flat_map after_act acts ++ map entry_of rest ++ U);
  pl_own_view : view (o_side o) caps (bk_get (o_side o) (r_book r)) bs';
  pl_own : Permutation (all bs) (removed ++ R);
  pl_own' : Permutation (all bs') (match post with Some e => [e] | None => [] end ++ R);
  pl_removed : (post = None -> removed = []) /\ (length removed <= 2)%nat /\
    (forall e, In e removed -> expiry (snd e) < now \/ better_price (o_side o) price (cprice ol e));
  pl_q : qview capq (r_q r)
     (Q ++ act_events x n acts ++ out_events (o_side o) now (n + Z.of_nat (length (act_events x n acts))) removed)
     (n + Z.of_nat (length (act_events x n acts)) + Z.of_nat (length removed));
  pl_market : r_market r =
     with_fees (with_seq mk (mk_seq mk + 1))
       (mk_fees_accrued mk + penalty_of o mk + (if took acts then taker_fees x acts + maker_fees x acts else 0));
  pl_tf : took acts = true -> 0 <= taker_fees x acts;
  pl_pos : exists p0, a_pos a = Some p0 /\
     p2 = (let p1 := if needs_penalty o then record_trading_fee p0 (mk_penalty mk) else p0 in
           if took acts then record_trading_fee (add_taker_trade p1 (o_side o) (sum_base acts) (sum_quote acts)) (taker_fees x acts)
           else p1);
  pl_post : match post with
     | None => r_acc r = set_pos a p2 /\ r_id r = None
     | Some (c, l) => post_target o = Some c /\ post' = Some c /\ r_id r = Some id /\
         0 < l_quantity l /\ l_quantity l = Z.min rb (rq / price) /\
         exists sl, next_order_slot a = Some sl /\
         l = mkLeaf sl 0 (o_tif o) id pk (l_quantity l) now (peg_limit o) (o_client o) /\
         add_perp_order (set_pos a p2) (mk_index mk) (o_side o) c l = Some (r_acc r)
     end
}.

Lemma entries_all ol b : Permutation (all b)
  (entries ol (fst b) (snd b) ++ map (pair true) (filter (fun l => negb (representable ol l)) (snd b))).
Proof.
  unfold all, entries. rewrite <- app_assoc. apply Permutation_app_head. rewrite <- map_app. apply Permutation_map.
  induction (snd b) as [|l P IH]; [reflexivity|]. cbn [filter]. destruct (representable ol l); cbn [negb app].
  - apply perm_skip, IH.
  - apply Permutation_cons_app, IH.
Qed.
Lemma item_of_ok sd seq b ol now e : side_ok sd seq b -> In e (entries ol (fst b) (snd b)) ->
  item_ok (item_of sd now ol e).
Proof.
  intros [Hf Hq] He. assert (Hin : In e (all b)).
  { eapply Permutation_in; [symmetry; apply (entries_all ol)|]. apply in_or_app; left; exact He. }
  split; [|unfold qty, item_of; cbn [it_leaf]; apply Hq, Hin].
  unfold item_of. cbn [it_price]. unfold entries in He. apply in_app_or in He as [He|He];
    apply in_map_iff in He as (l & <- & Hl).
  - rewrite Forall_forall in Hf. specialize (Hf l Hl). unfold fixed_ok in Hf. unfold eff_price. cbn [fst snd]. lia.
  - apply filter_In in Hl as [_ Hl]. unfold representable in Hl. apply andb_true_iff in Hl as [Hl _].
    apply Z.leb_le in Hl. exact Hl.
Qed.

Lemma seqno_new sd pd s : in_u64 s -> seqno sd (mkLeaf 0 0 0 (new_node_key sd pd s) 0 0 0 0 0) = s.
Proof.
  intros Hs. unfold seqno. cbn [l_key]. rewrite new_node_key_eq by exact Hs.
  destruct sd.
  - rewrite Z.add_comm, Z.mod_add by lia. rewrite Z.mod_small by (pose proof (not_u64_range s Hs); unfold in_u64, u64_max in *; lia).
    unfold not_u64. lia.
  - rewrite Z.add_comm, Z.mod_add by lia. rewrite Z.mod_small; [reflexivity|]. unfold in_u64, u64_max in *; lia.
Qed.
Lemma seqno_key sd l l' : l_key l = l_key l' -> seqno sd l = seqno sd l'.
Proof. unfold seqno. intros ->. reflexivity. Qed.

Lemma bk_get_set_same sd s b : bk_get sd (bk_set sd s b) = s.
Proof. destruct sd; reflexivity. Qed.
Lemma bk_get_set_other (sd : side) s b : bk_get (negb sd) (bk_set sd s b) = bk_get (negb sd) b.
Proof. destruct sd; reflexivity. Qed.
Lemma bk_get_set_other' (sd : side) s b : bk_get sd (bk_set (negb sd) s b) = bk_get sd b.
Proof. destruct sd; reflexivity. Qed.

Lemma next_slot_set_pos a p : next_order_slot (set_pos a p) = next_order_slot a.
Proof. reflexivity. Qed.

Theorem new_order_placed capo caps capq bk o mk q oracle a pk now limit r bo bs Q n :
  new_order bk o mk q oracle a pk now limit = Some r ->
  order_wf o -> clock_ok now -> 0 <= mk_seq mk ->
  view (negb (o_side o)) capo (bk_get (negb (o_side o)) bk) bo -> side_ok (negb (o_side o)) (mk_seq mk) bo ->
  view (o_side o) caps (bk_get (o_side o) bk) bs -> side_ok (o_side o) (mk_seq mk) bs ->
  qview capq q Q n ->
  exists ol price pd id x acts rest es rb rq d lm post' U bo' removed R bs' p2 post,
    placed capo caps capq bk o mk q oracle a pk now limit r bo bs Q n
      ol price pd id x acts rest es rb rq d lm post' U bo' removed R bs' p2 post.
Proof.
  intros HN Hwf [Hnow Hnow2] Hseq Hvo Hoo Hvs Hos HQ. unfold new_order in HN.
  destruct (native_price_to_lot mk oracle) as [ol|] eqn:Eol; [|discriminate].
  assert (Hol : in_i64 ol).
  { unfold native_price_to_lot in Eol. apply chk_i64_some in Eol as [-> H]. exact H. }
  assert (HM : exists es, bs_items (negb (o_side o)) (bk_get (negb (o_side o)) bk) now ol =
       Some (map (item_of (negb (o_side o)) now ol) es) /\
     Permutation es (entries ol (fst bo) (snd bo)) /\ StronglySorted (before (negb (o_side o)) ol) es).
  { pose proof Hvo as [_ Hl]. unfold bs_items. rewrite (Hl false), (Hl true). cbn [get]. apply merge_ok; auto.
    - exact (view_sorted _ _ _ _ false Hvo).
    - exact (view_sorted _ _ _ _ true Hvo).
    - apply Hoo.
    - exact (view_okey _ _ _ _ true Hvo). }
  destruct HM as (es & EL & HPes & HSes). rewrite EL in HN.
  destruct (order_price o ol _) as [[price pd]|] eqn:Epr; [|discriminate].
  destruct (order_price_ok _ _ _ _ _ Epr Hwf Hol) as (Hprice & Hpd & _ & _ & _).
  unfold gen_order_id in HN. destruct (Z.leb_spec (mk_seq mk + 1) u64_max) as [Hs1|]; [|discriminate].
  destruct (a_pos a) as [p0|] eqn:Ep0; [|discriminate].
  set (p1 := if needs_penalty o then record_trading_fee p0 (mk_penalty mk) else p0) in *.
  set (mk1 := with_fees (with_seq mk (mk_seq mk + 1)) (mk_fees_accrued mk + penalty_of o mk)).
  assert (Emk1 : (if needs_penalty o then apply_penalty (with_seq mk (mk_seq mk + 1)) p0
                  else (with_seq mk (mk_seq mk + 1), p0)) = (mk1, p1)).
  { unfold mk1, p1, penalty_of, apply_penalty. destruct (needs_penalty o); [reflexivity|].
    rewrite Z.add_0_r. destruct mk; reflexivity. }
  rewrite Emk1 in HN. clear Emk1.
  destruct (match_loop _ _ _) as [m|] eqn:Em; [|discriminate].
  set (x := mkCtx o mk1 pk now price) in *.
  assert (Hitems : Forall item_ok (map (item_of (negb (o_side o)) now ol) es)).
  { rewrite Forall_forall. intros i Hi. apply in_map_iff in Hi as (e & <- & He).
    eapply item_of_ok; [exact Hoo|]. eapply Permutation_in; [exact HPes|exact He]. }
  destruct (match_loop_run x _ Hitems _ _ capq Q n Em HQ) as
    (acts & rest & HL & Hrun & Hstop & Hdec & Hchg & Hdel & HQ').
  { cbn [m_rem_base]. apply Hwf. } { cbn [m_rem_quote]. apply Hwf. }
  cbn [m_rem_base m_rem_quote m_dropped m_limit m_post m_dec_quote m_change m_delete app] in Hrun, Hstop, Hdec, Hchg, Hdel.
  rewrite Z.add_0_l in Hdec.
  destruct (run_sums _ _ _ _ _ _ _ _ _ _ Hrun) as (Hrb & Hrq & Hrb0 & Hrq0 & Hlm & Hdr).
  assert (Hitems' : Forall item_ok (map fst acts)).
  { rewrite HL in Hitems. apply Forall_app in Hitems. apply Hitems. }
  pose proof (run_dec_le _ _ _ _ _ _ _ _ _ _ Hrun Hitems') as Hdle.
  assert (Eq : o_max_quote o - m_rem_quote m = sum_quote acts) by lia.
  assert (Eb : o_max_base o - m_rem_base m = sum_base acts) by lia.
  rewrite Eq, Eb in HN.
  destruct ((sum_quote acts <? 0) || (sum_base acts <? 0)); [discriminate|].
  fold (took acts) in HN. rewrite Hdec in HN.
  set (p2 := if took acts then record_trading_fee (add_taker_trade p1 (o_side o) (sum_base acts) (sum_quote acts)) (taker_fees x acts)
           else p1) in *.
  set (mk2 := with_fees (with_seq mk (mk_seq mk + 1))
       (mk_fees_accrued mk + penalty_of o mk + (if took acts then taker_fees x acts + maker_fees x acts else 0))).
  assert (Hfee : (if took acts
         then apply_fees mk1 (add_taker_trade p1 (o_side o) (sum_base acts) (sum_quote acts)) (sum_quote acts - sum_dec x acts)
         else Some (mk1, p1)) = Some (mk2, p2) /\ (took acts = true -> 0 <= taker_fees x acts)).
  { unfold mk2, p2. destruct (took acts).
    - unfold apply_fees in HN |- *. destruct (Z.ltb_spec (sum_quote acts - sum_dec x acts) 0); [lia|].
      change (fmul (of_int (mk_qls mk1 * (sum_quote acts - sum_dec x acts))) (mk_taker_fee mk1)) with (taker_fees x acts) in *.
      change (fmul (of_int (mk_qls mk1 * (sum_quote acts - sum_dec x acts))) (mk_maker_fee mk1)) with (maker_fees x acts) in *.
      destruct (Z.ltb_spec (taker_fees x acts) 0); [discriminate|]. split; [reflexivity|]. intros _; assumption.
    - split; [|discriminate]. unfold mk1. rewrite Z.add_0_r. reflexivity. }
  destruct Hfee as [Hfee Htf]. rewrite Hfee in HN. clear Hfee.
  set (U := map (pair true) (filter (fun l => negb (representable ol l)) (snd bo))).
  assert (Hent : map entry_of (map fst acts ++ rest) = es).
  { rewrite <- HL, map_map. erewrite map_ext; [apply map_id|]. intros [c l]; reflexivity. }
  assert (Hopp : Permutation (all bo) (map entry_of (map fst acts ++ rest) ++ U)).
  { rewrite Hent, HPes. apply entries_all. }
  destruct (apply_acts _ _ _ _ acts (map entry_of rest ++ U) Hvo) as (s1 & s2 & bo' & Ec & Ed & Hvo' & Hopp').
  { rewrite app_assoc, <- map_app. exact Hopp. }
  rewrite Hchg in HN. rewrite Ec in HN. rewrite Hdel, Ed in HN.
  rewrite bk_get_set_other' in HN.
  assert (Hquot : Z.quot (m_rem_quote m) price = m_rem_quote m / price).
  { apply Z.quot_div_nonneg; [|lia]. apply Hrq0, Hwf. }
  rewrite Hquot in HN.
  set (id := new_node_key (o_side o) pd (mk_seq mk + 1)) in *.
  assert (Hnopost : Some (mkRes (bk_set (negb (o_side o)) s2 bk) mk2 (m_q m) (set_pos a p2) None) = Some r ->
    exists ol price pd id x acts rest es rb rq d lm post' U bo' removed R bs' p2 post,
    placed capo caps capq bk o mk q oracle a pk now limit r bo bs Q n
      ol price pd id x acts rest es rb rq d lm post' U bo' removed R bs' p2 post).
  { intros E. injection E as <-.
    exists ol, price, pd, id, x, acts, rest, es, (m_rem_base m), (m_rem_quote m), (m_dropped m), (m_limit m),
      (m_post m), U, bo', [], (all bs), bs, p2, None.
    constructor; cbn [r_book r_market r_q r_acc r_id];
      rewrite ?bk_get_set_same, ?bk_get_set_other'; auto.
    - rewrite EL, HL. reflexivity.
    - rewrite <- HL. exact Epr.
    - repeat split; reflexivity.
    - split; [reflexivity|]. split; [cbn; lia|]. intros e [].
    - cbn [out_events length]. rewrite app_nil_r, Z.add_0_r. exact HQ'.
    - exists p0. split; [exact Ep0|reflexivity]. }
  destruct (Z.leb_spec (Z.min (m_rem_base m) (m_rem_quote m / price)) 0) as [Hz|Hz]; [exact (Hnopost HN)|].
  destruct (m_post m) as [c|] eqn:Epost; [|exact (Hnopost HN)].
  destruct (inside_price_limit mk2 (o_side o) (lot_to_native_price mk2 price) oracle); [|exact (Hnopost HN)].
  clear Hnopost.
  destruct (post_order _ _ _ _ _ _ _ _ _ _ _ _) as [[[s' q'] a']|] eqn:Epo; [|discriminate]. injection HN as <-.
  assert (Hseq1 : in_u64 (mk_seq mk + 1)) by (unfold in_u64; lia).
  assert (Hid : forall e, In e (all bs) -> l_key (snd e) <> id).
  { intros e He Ek. destruct Hos as [_ Hos]. destruct (Hos e He) as [_ Hsn].
    pose proof (seqno_new (o_side o) pd (mk_seq mk + 1) Hseq1) as Hn.
    rewrite (seqno_key _ (snd e) (mkLeaf 0 0 0 id 0 0 0 0 0)) in Hsn by exact Ek. unfold id in Hsn. lia. }
  assert (Hkey : key_ok id).
  { unfold key_ok, id. apply key_range; [unfold in_u64; lia|exact Hseq1]. }
  assert (Htif : 0 <= o_tif o < 2 ^ 16) by apply Hwf.
  destruct (post_order_ok _ _ _ _ _ _ _ _ _ _ _ _ _ _ _ caps capq bs _ _ Epo Hvs HQ' Hol (proj1 Hos) Hid Hkey Htif Hnow Hnow2)
    as (sl & removed & R & bs' & Hsl & Hadd & Hvs' & Hown & Hown' & HQ'' & Hlen & Hrem).
  rewrite next_slot_set_pos in Hsl.
  assert (Hpt : post_target o = Some c).
  { destruct Hstop as [[E _]|[E _]]; rewrite ?Epost in E; [symmetry; exact E|discriminate]. }
  exists ol, price, pd, id, x, acts, rest, es, (m_rem_base m), (m_rem_quote m), (m_dropped m), (m_limit m),
    (Some c), U, bo', removed, R, bs', p2,
    (Some (c, mkLeaf sl 0 (o_tif o) id pk (Z.min (m_rem_base m) (m_rem_quote m / price)) now (peg_limit o) (o_client o))).
  constructor; cbn [r_book r_market r_q r_acc r_id]; auto.
  - rewrite EL, HL. reflexivity.
  - rewrite <- HL. exact Epr.
  - repeat split; reflexivity.
  - rewrite bk_get_set_other, bk_get_set_same. exact Hvo'.
  - rewrite bk_get_set_same. exact Hvs'.
  - split; [discriminate|]. split; assumption.
  - rewrite app_assoc. exact HQ''.
  - exists p0. split; [exact Ep0|reflexivity].
  - cbn [l_quantity]. split; [exact Hpt|]. split; [reflexivity|]. split; [reflexivity|]. split; [exact Hz|].
    split; [reflexivity|]. exists sl. split; [exact Hsl|]. split; [reflexivity|]. exact Hadd.
Qed.
