(** C09-C12, C17, C47, C50: placing and cancelling perp orders.
    Every theorem about placing quantifies over [order_call] (BookSpec.v): any
    successful call of [new_order] with any order, oracle price, time, limit, account
    and any well-formed book and queue.  [C50_book_stays_ok] shows that the
    well-formedness is preserved, [ex_call] that there are such calls. *)
From Coq Require Import List ZArith Lia Bool Arith Permutation Sorted.
From Verif Require Import OrderTree OrderTreeSpec BookArena BookArenaFacts Keys Fixed BookSide BookSideSpec
  BookSideWorst EventQueue PerpTypes Book BookLoop BookPlace BookSpec BookFacts BookResults BookResults2 BookCancel BookKeep BookPrice.
Import ListNotations.
Open Scope Z_scope.

(** ** C09 *)
(** no more base, quote or fills than allowed *)
Theorem C09_limits : forall cap capq bk o mk q oracle a pk now limit r ol Q new n n',
  order_call cap capq bk o mk q oracle a pk now limit r ol Q new n n' ->
  fill_base (fills new) <= o_max_base o /\ fill_quote (fills new) <= o_max_quote o /\
  (length (fills new) <= limit)%nat.
Proof. intros until n'. exact call_limits. Qed.
Print Assumptions C09_limits.

(** each fill is against a live resting order of the other side, at its price, and
    no worse than the taker's limit *)
Theorem C09_fill_prices : forall cap capq bk o mk q oracle a pk now limit r ol Q new n n',
  order_call cap capq bk o mk q oracle a pk now limit r ol Q new n n' ->
  forall f, In f (fills new) ->
    f_taker f = pk /\ f_taker_side f = o_side o /\
    (exists e, In e (resting (negb (o_side o)) bk) /\ live (negb (o_side o)) now ol e /\ made_with ol f e) /\
    (forall p, requested_price o ol = Some p -> no_worse (o_side o) (f_price f) p).
Proof. intros until n'. exact call_fill_prices. Qed.
Print Assumptions C09_fill_prices.

(** resting orders are matched in strict price-time priority: no live order is passed
    over in favour of one behind it *)
Theorem C09_priority : forall cap capq bk o mk q oracle a pk now limit r ol Q new n n',
  order_call cap capq bk o mk q oracle a pk now limit r ol Q new n n' ->
  exists makers, Forall2 (made_with ol) (fills new) makers /\
    (forall e, In e makers -> In e (resting (negb (o_side o)) bk)) /\
    StronglySorted (before (negb (o_side o)) ol) makers /\
    (forall e e', In e makers -> In e' (resting (negb (o_side o)) bk) -> live (negb (o_side o)) now ol e' ->
       before (negb (o_side o)) ol e' e ->
       In e' makers \/
       (o_stb o = CancelProvide /\ l_owner (snd e') = pk /\ reported_out (negb (o_side o)) new e')).
Proof. intros until n'. exact call_priority. Qed.
Print Assumptions C09_priority.

(** a resting order is only left partially filled, with a later fill following, if
    the remaining quote does not pay for one more lot of it *)
Theorem C09_partial_fills : forall cap capq bk o mk q oracle a pk now limit r ol Q new n n',
  order_call cap capq bk o mk q oracle a pk now limit r ol Q new n n' ->
  forall F1 f F2, fills new = F1 ++ f :: F2 -> f_maker_out f = false -> F2 <> [] ->
  o_max_quote o - fill_quote (F1 ++ [f]) < f_price f.
Proof. intros until n'. exact call_partial. Qed.
Print Assumptions C09_partial_fills.

(** what is filled and what is posted stay within the limits together *)
Theorem C09_totals : forall cap capq bk o mk q oracle a pk now limit r ol Q new n n',
  order_call cap capq bk o mk q oracle a pk now limit r ol Q new n n' ->
  forall e, posted o r e ->
  fill_base (fills new) + l_quantity (snd e) <= o_max_base o /\
  fill_quote (fills new) + l_quantity (snd e) * eff_price ol e <= o_max_quote o.
Proof. intros until n'. exact call_totals. Qed.
Print Assumptions C09_totals.

(** a taking order leaves a live order it crosses untouched only if it ran out of
    base, of quote for one more lot, or of matches *)
Theorem C09_takes_everything : forall cap capq bk o mk q oracle a pk now limit r ol Q new n n',
  order_call cap capq bk o mk q oracle a pk now limit r ol Q new n n' ->
  forall e', asks_post_only o = false -> In e' (resting (negb (o_side o)) bk) -> live (negb (o_side o)) now ol e' ->
  (forall p, requested_price o ol = Some p -> crosses (o_side o) p (eff_price ol e')) ->
  ~ reported_out (negb (o_side o)) new e' -> (~ exists f, In f (fills new) /\ made_with ol f e') ->
  fill_base (fills new) = o_max_base o \/ length (fills new) = limit \/
  exists e0, In e0 (resting (negb (o_side o)) bk) /\ live (negb (o_side o)) now ol e0 /\
    (e0 = e' \/ before (negb (o_side o)) ol e0 e') /\
    o_max_quote o - fill_quote (fills new) < eff_price ol e0.
Proof. intros until n'. exact call_maximal. Qed.
Print Assumptions C09_takes_everything.

(** ** C10 *)
Theorem C10_post_only_never_fills : forall cap capq bk o mk q oracle a pk now limit r ol Q new n n',
  order_call cap capq bk o mk q oracle a pk now limit r ol Q new n n' ->
  asks_post_only o = true -> fills new = [].
Proof. intros until n'. exact call_post_only. Qed.
Print Assumptions C10_post_only_never_fills.

(** a posted post-only order crosses no live order of the other side; so a PostOnly
    order that would cross is not posted *)
Theorem C10_post_only_never_crosses : forall cap capq bk o mk q oracle a pk now limit r ol Q new n n',
  order_call cap capq bk o mk q oracle a pk now limit r ol Q new n n' ->
  asks_post_only o = true -> forall e e', posted o r e ->
  In e' (resting (negb (o_side o)) bk) -> live (negb (o_side o)) now ol e' ->
  ~ crosses (o_side o) (eff_price ol e) (eff_price ol e').
Proof. intros until n'. intros H Hpo e e' HP He Hl. exact (posted_not_crossing H e e' HP (or_introl Hpo) He Hl (or_introl Hpo)). Qed.
Print Assumptions C10_post_only_never_crosses.

(** a posted order rests at the price asked for; a sliding one at this price or, if
    that would cross, one tick behind the best live opposing order *)
Theorem C10_posted_price : forall cap capq bk o mk q oracle a pk now limit r ol Q new n n',
  order_call cap capq bk o mk q oracle a pk now limit r ol Q new n n' ->
  forall e, posted o r e -> exists p, requested_price o ol = Some p /\
  if is_slide o then
    (eff_price ol e = p /\ forall b, ~ best_live (negb (o_side o)) bk now ol b) \/
    (exists b, best_live (negb (o_side o)) bk now ol b /\
       eff_price ol e = if o_side o then Z.min p (eff_price ol b - 1) else Z.max p (eff_price ol b + 1))
  else eff_price ol e = p.
Proof. intros until n'. exact call_posted_price. Qed.
Print Assumptions C10_posted_price.

(** ** C11 *)
Theorem C11_immediate_never_rests : forall cap capq bk o mk q oracle a pk now limit r ol Q new n n',
  order_call cap capq bk o mk q oracle a pk now limit r ol Q new n n' ->
  (o_params o = PMarket \/ exists p, o_params o = PIoc p) ->
  r_id r = None /\ Permutation (resting (o_side o) (r_book r)) (resting (o_side o) bk) /\
  a_oo (r_acc r) = a_oo a.
Proof.
  intros until n'. intros H Ho. assert (Hn : r_id r = None).
  { apply (call_no_target H). unfold post_target. destruct Ho as [->|(p & ->)]; reflexivity. }
  split; [exact Hn|]. split.
  - destruct (call_own_side H) as (rem & kept & HP & [(e & [He _] & _)|(_ & -> & HP')]); [congruence|].
    etransitivity; [exact HP'|symmetry; exact HP].
  - pose proof (call_slots H) as Hs. rewrite Hn in Hs. exact Hs.
Qed.
Print Assumptions C11_immediate_never_rests.

(** a reported order id belongs to an order that rests with a positive quantity, owned
    by the placer, in a slot that was free and that now records exactly this order;
    without an id no slot changes *)
Theorem C11_posted_order_is_recorded : forall cap capq bk o mk q oracle a pk now limit r ol Q new n n',
  order_call cap capq bk o mk q oracle a pk now limit r ol Q new n n' ->
  match r_id r with
  | None => a_oo (r_acc r) = a_oo a
  | Some id => exists e i s, posted o r e /\ slot_at a i = Some s /\ s_market s = FREE /\
      0 < l_quantity (snd e) /\ l_owner (snd e) = pk /\ l_owner_slot (snd e) = i /\
      l_client_id (snd e) = o_client o /\ l_tif (snd e) = o_tif o /\ l_timestamp (snd e) = now /\
      seqno (o_side o) (snd e) = mk_seq mk + 1 /\
      Some (fst e) = order_component o /\
      a_oo (r_acc r) = upd (a_oo a) (Z.to_nat i)
        (mkSlot (mk_index mk) (o_side o) (fst e) id (o_client o) (l_quantity (snd e)))
  end.
Proof. intros until n'. exact call_slots. Qed.
Print Assumptions C11_posted_order_is_recorded.

(** ** C12 *)
Theorem C12_self_fill_is_free : forall cap capq bk o mk q oracle a pk now limit r ol Q new n n',
  order_call cap capq bk o mk q oracle a pk now limit r ol Q new n n' ->
  forall f, In f (fills new) -> f_maker f = pk ->
  o_stb o = DecrementTake /\ f_maker_fee f = 0 /\ f_taker_fee f = 0.
Proof. intros until n'. exact call_self. Qed.
Print Assumptions C12_self_fill_is_free.

(** if the best live opposing order is the taker's own and crosses: AbortTransaction
    orders do not succeed, CancelProvide orders cancel it, DecrementTake orders fill it *)
Theorem C12_behaviour : forall cap capq bk o mk q oracle a pk now limit r ol Q new n n',
  order_call cap capq bk o mk q oracle a pk now limit r ol Q new n n' ->
  forall e, best_live (negb (o_side o)) bk now ol e ->
  l_owner (snd e) = pk -> asks_post_only o = false -> (0 < limit)%nat -> 0 < o_max_base o -> eff_price ol e <= o_max_quote o ->
  (forall p, requested_price o ol = Some p -> crosses (o_side o) p (eff_price ol e)) ->
  match o_stb o with
  | AbortTransaction => False
  | CancelProvide => reported_out (negb (o_side o)) new e
  | DecrementTake => exists f, In f (fills new) /\ made_with ol f e
  end.
Proof. intros until n'. intros H e (H1 & H2 & H3). exact (call_first_own H e H1 H2 H3). Qed.
Print Assumptions C12_behaviour.

(** the fees charged and accrued: only fills against other owners count, and the
    taker pays exactly taker fee plus IOC penalty *)
Theorem C12_fees : forall cap capq bk o mk q oracle a pk now limit r ol Q new n n',
  order_call cap capq bk o mk q oracle a pk now limit r ol Q new n n' ->
  exists p p', a_pos a = Some p /\ a_pos (r_acc r) = Some p' /\
  let volume := fill_quote (filter (fun f => negb (f_maker f =? pk)) (fills new)) in
  let fee rate := fmul (of_int (mk_qls mk * volume)) rate in
  let penalty := if asks_ioc o then mk_penalty mk else 0 in
  0 <= fee (mk_taker_fee mk) /\
  mk_fees_accrued (r_market r) = mk_fees_accrued mk + penalty + (fee (mk_taker_fee mk) + fee (mk_maker_fee mk)) /\
  p_quote p' = p_quote p - penalty - fee (mk_taker_fee mk) /\
  p_base p' = p_base p /\
  p_taker_base p' = p_taker_base p + (if o_side o then 1 else -1) * fill_base (fills new) /\
  p_taker_quote p' = p_taker_quote p - (if o_side o then 1 else -1) * fill_quote (fills new).
Proof.
  intros until n'. intros H. destruct (call_fees H) as (p & p' & H1 & H2 & H3 & H4 & _ & H5 & H6 & H7 & H8 & _).
  exists p, p'. split; [exact H1|]. split; [exact H2|]. cbv zeta.
  split; [exact H3|]. split; [exact H4|]. auto.
Qed.
Print Assumptions C12_fees.

(** ** C47: no order is left crossing the book it was placed on *)
Theorem C47_posted_bid_not_crossing : forall cap capq bk o mk q oracle a pk now limit r ol Q new n n',
  order_call cap capq bk o mk q oracle a pk now limit r ol Q new n n' ->
  o_side o = Bid -> forall e e', posted o r e -> In e' (resting Ask bk) -> live Ask now ol e' ->
  (* not consumed by this very order *)
  ~ reported_out Ask new e' -> ~ (exists f, In f (fills new) /\ made_with ol f e') ->
  ~ crosses Bid (eff_price ol e) (eff_price ol e').
Proof.
  intros until n'. intros H Hs e e' HP He Hl H1 H2.
  pose proof (posted_not_crossing H e e' HP (or_intror Hs)) as HC. rewrite Hs in HC.
  exact (HC He Hl (or_intror (conj H1 H2))).
Qed.
Print Assumptions C47_posted_bid_not_crossing.

(** ** C50: the book changes exactly as the events say *)
Theorem C50_opposing_side : forall cap capq bk o mk q oracle a pk now limit r ol Q new n n',
  order_call cap capq bk o mk q oracle a pk now limit r ol Q new n n' ->
  Permutation (resting (negb (o_side o)) (r_book r))
    (flat_map (residual (negb (o_side o)) new) (resting (negb (o_side o)) bk)).
Proof. intros until n'. exact call_opposing. Qed.
Print Assumptions C50_opposing_side.

(** on its own side the order only adds itself and may evict, with an out event, one
    expired order and one order of worse price *)
Theorem C50_own_side : forall cap capq bk o mk q oracle a pk now limit r ol Q new n n',
  order_call cap capq bk o mk q oracle a pk now limit r ol Q new n n' ->
  exists removed kept,
    Permutation (resting (o_side o) bk) (removed ++ kept) /\
    ((exists e, posted o r e /\ Permutation (resting (o_side o) (r_book r)) (e :: kept) /\
        (length removed <= 2)%nat /\
        forall e', In e' removed -> reported_out (o_side o) new e' /\
          (expires_at (snd e') < now \/ better_price (o_side o) (eff_price ol e) (cprice ol e'))) \/
     (r_id r = None /\ removed = [] /\ Permutation (resting (o_side o) (r_book r)) kept)).
Proof. intros until n'. exact call_own_side. Qed.
Print Assumptions C50_own_side.

Theorem C50_book_stays_ok : forall cap capq bk o mk q oracle a pk now limit r ol Q new n n',
  order_call cap capq bk o mk q oracle a pk now limit r ol Q new n n' ->
  book_ok cap (mk_seq (r_market r)) (r_book r).
Proof. intros until n'. exact call_book_ok. Qed.
Print Assumptions C50_book_stays_ok.

(** every call on a well-formed state is an [order_call] *)
Lemma order_call_intro : forall cap capq bk o mk q oracle a pk now limit r Q n,
  new_order bk o mk q oracle a pk now limit = Some r -> order_wf o -> clock_ok now -> 0 <= mk_seq mk ->
  book_ok cap (mk_seq mk) bk -> qview capq q Q n ->
  exists ol new n', order_call cap capq bk o mk q oracle a pk now limit r ol Q new n n'.
Proof.
  intros cap capq bk o mk q oracle a pk now limit r Q n Hrun Hwf Hcl Hs Hb HQ.
  destruct (book_ok_view _ _ _ (negb (o_side o)) Hb) as (bo & Hvo & Eo & Hoo).
  destruct (book_ok_view _ _ _ (o_side o) Hb) as (bs & Hvs & Es & Hos).
  destruct (new_order_placed _ _ _ _ _ _ _ _ _ _ _ _ _ _ _ _ _ Hrun Hwf Hcl Hs Hvo Hoo Hvs Hos HQ)
    as (ol & price & pd & id & x & acts & rest & es & rb & rq & d & lm & post' & U & bo' & removed & R & bs' & p2 & post & HP).
  destruct HP. eexists ol, _, _. constructor; try eassumption; try apply pl_ol.
Qed.

(** ** C17 *)
(** a successful cancel takes exactly the order of that slot off the book; it must
    be the caller's own *)
Theorem C17_cancel_effect : forall cap seq bk a mkt pk i bk' a', book_ok cap seq bk ->
  cancel_by_slot bk a mkt pk i = Some (inl (bk', a')) ->
  cancelled bk a mkt pk i bk' a' /\ book_ok cap seq bk'.
Proof. exact cancel_by_slot_spec. Qed.
Print Assumptions C17_cancel_effect.

(** a resting order can be cancelled through its slot exactly by its owner *)
Theorem C17_cancel_succeeds_iff_owner : forall cap seq bk a mkt pk i s p l, book_ok cap seq bk ->
  slot_at a i = Some s -> s_market s = mkt -> mkt <> FREE -> a_pos a = Some p ->
  In (s_comp s, l) (resting (s_side s) bk) -> l_key l = s_id s ->
  if (l_owner l =? pk) && (l_owner_slot l =? i)
  then exists bk' a', cancel_by_slot bk a mkt pk i = Some (inl (bk', a'))
  else cancel_by_slot bk a mkt pk i = None.
Proof. exact cancel_by_slot_succeeds. Qed.
Print Assumptions C17_cancel_succeeds_iff_owner.

(** a slot whose order has left the book can still be cancelled unless it is known to
    be completely filled *)
Theorem C17_cancel_gone : forall cap seq bk a mkt pk i s p, book_ok cap seq bk ->
  slot_at a i = Some s -> s_market s = mkt -> mkt <> FREE -> a_pos a = Some p ->
  (forall l, In (s_comp s, l) (resting (s_side s) bk) -> l_key l <> s_id s) ->
  if s_qty s =? 0 then cancel_by_slot bk a mkt pk i = Some (inr tt)
  else exists a', cancel_by_slot bk a mkt pk i = Some (inl (bk, a')).
Proof. exact cancel_by_slot_gone. Qed.
Print Assumptions C17_cancel_gone.

(** cancel-all takes only the caller's own orders off the book, only on the wanted
    side, and touches only wanted slots *)
Theorem C17_cancel_all_effect : forall cap seq mkt pk only cnt bk a limit i bk' a', book_ok cap seq bk ->
  cancel_all bk a mkt pk limit only i cnt = Some (bk', a') ->
  book_ok cap seq bk' /\
  forall sd, exists rem, Permutation (resting sd bk) (rem ++ resting sd bk') /\
    (forall e, In e rem -> l_owner (snd e) = pk) /\
    (forall sd0, only = Some sd0 -> sd <> sd0 -> rem = []) /\
    (forall p, a_pos a = Some p -> exists p', a_pos a' = Some p' /\
       side_lots sd p' = side_lots sd p - qsum rem /\ p_base p' = p_base p /\ p_quote p' = p_quote p /\
       p_taker_base p' = p_taker_base p /\ p_taker_quote p' = p_taker_quote p) /\
    (forall j s, slot_at a' j = Some s -> slot_at a j = Some s \/
       (s = slot0 /\ exists s0, slot_at a j = Some s0 /\ wanted mkt only s0 = true)).
Proof.
  intros until a'. intros Hb Hc. destruct (cancel_all_cancels _ _ _ _ _ _ _ _ _ _ _ _ Hb Hc) as [HK Hb'].
  split; [exact Hb'|]. exact (cancels_spec _ _ _ _ _ _ _ _ HK).
Qed.
Print Assumptions C17_cancel_all_effect.

(** with a sufficient limit, afterwards no slot of the caller refers to a wanted order
    that still rests *)
Theorem C17_cancel_all_complete : forall cap seq mkt pk only cnt bk a limit i bk' a',
  book_ok cap seq bk -> mkt <> FREE -> 0 <= i ->
  cancel_all bk a mkt pk limit only i cnt = Some (bk', a') ->
  (length (filter (wanted mkt only) (firstn cnt (skipn (Z.to_nat i) (a_oo a)))) <= limit)%nat ->
  forall j s, i <= j < i + Z.of_nat cnt -> slot_at a' j = Some s -> wanted mkt only s = true -> done_slot bk' s.
Proof. exact cancel_all_complete. Qed.
Print Assumptions C17_cancel_all_complete.

(** ** concrete states *)
Definition ex_market : market :=
  mkMarket 3 0 1 1 (- (fone / 5000)) (fone / 1000) fone 0 0 0 0 (fone / 2) (3 * fone / 2).
Definition ex_event : event := EOut (mkOut Bid 0 0 0 0 0 0).
Definition ex_queue : evq := mkQ 2 0 0 (repeat ex_event 8).
Definition ex_acc : account := mkAcc (Some pos0) (repeat slot0 4).
Definition ex_lim (sd : side) (p n : Z) : order := mkOrder sd n 1000 77 0 DecrementTake (PFixed p PTLimit).

Fixpoint places (bk : orderbook) (mk : market) (q : evq) (oracle : fx) (now : Z) (limit : nat) (L : list (order * Z))
  : option (orderbook * market * evq) :=
  match L with
  | [] => Some (bk, mk, q)
  | (o, pk) :: L' =>
      match new_order bk o mk q oracle ex_acc pk now limit with
      | Some r => places (r_book r) (r_market r) (r_q r) oracle now limit L'
      | None => None
      end
  end.
Lemma places_ok cap capq oracle now limit : clock_ok now -> forall L bk mk q Q n bk' mk' q',
  places bk mk q oracle now limit L = Some (bk', mk', q') -> Forall (fun x => order_wf (fst x)) L ->
  0 <= mk_seq mk -> book_ok cap (mk_seq mk) bk -> qview capq q Q n ->
  0 <= mk_seq mk' /\ book_ok cap (mk_seq mk') bk' /\ exists Q' n', qview capq q' Q' n'.
Proof.
  intros Hcl. induction L as [|[o pk] L IH]; intros bk mk q Q n bk' mk' q' HP HF Hs Hb HQ; cbn [places] in HP.
  - injection HP as <- <- <-. eauto.
  - inversion HF as [|? ? Hw HF']; subst. destruct (new_order bk o mk q oracle ex_acc pk now limit) as [r|] eqn:E; [|discriminate].
    destruct (order_call_intro cap capq _ _ _ _ _ _ _ _ _ _ _ _ E Hw Hcl Hs Hb HQ) as (ol & new & n2 & HC).
    eapply IH; [exact HP|exact HF'| |eapply call_book_ok, HC|apply HC].
    destruct (call_fees HC) as (p & p' & _ & _ & _ & _ & -> & _). cbn. lia.
Qed.
Lemma ex_queue_view : qview 8 ex_queue [] 0.
Proof. repeat split; cbn; lia. Qed.

Ltac wf := unfold order_wf, in_i64, i64_min, i64_max; cbn; lia.
(** a state: bids at 18 (7 lots, owner 1) and 20 (2 lots, owner 2), asks at 25 (owner 2) *)
Definition ex_places := places (empty_book 16) ex_market ex_queue (of_int 20) 1000 10
  [(ex_lim Bid 18 7, 1); (ex_lim Bid 20 2, 2); (ex_lim Ask 25 3, 2)].

Lemma ex_call o pk limit : order_wf o ->
  forall bk mk q r, ex_places = Some (bk, mk, q) -> new_order bk o mk q (of_int 20) ex_acc pk 1000 limit = Some r ->
  exists Q new n n', order_call 16 8 bk o mk q (of_int 20) ex_acc pk 1000 limit r 20 Q new n n' /\
    q_iter q = Some Q /\ q_iter (r_q r) = Some (Q ++ new).
Proof.
  intros Hwf bk mk q r HE HN.
  assert (Hcl : clock_ok 1000) by (unfold clock_ok, u64_max; lia).
  destruct (places_ok 16 8 _ _ _ Hcl _ _ _ _ [] 0 _ _ _ HE) as (Hs & Hb & Q & n & HQ).
  - repeat constructor; wf.
  - cbn; lia.
  - apply empty_book_ok.
  - exact ex_queue_view.
  - destruct (order_call_intro _ _ _ _ _ _ _ _ _ _ _ _ _ _ HN Hwf Hcl Hs Hb HQ) as (ol & new & n' & HC).
    assert (Eol : ol = 20).
    { pose proof (oc_ol _ _ _ _ _ _ _ _ _ _ _ _ _ _ _ _ _ HC) as Eol.
      assert (Hmk : mk_bls mk = 1 /\ mk_qls mk = 1) by (vm_compute in HE; injection HE as _ <- _; split; reflexivity).
      unfold native_price_to_lot in Eol. destruct Hmk as [Hm1 Hm2]. rewrite Hm1, Hm2 in Eol. vm_compute in Eol. congruence. }
    subst ol. exists Q, new, n, n'. split; [exact HC|].
    split; [exact (q_iter_ok _ _ _ HQ)|exact (q_iter_ok _ _ _ (oc_new _ _ _ _ _ _ _ _ _ _ _ _ _ _ _ _ _ HC))].
Qed.

Definition fill_view (e : event) : option (Z * Z * Z * bool) :=
  match e with EFill f => Some (f_maker f, f_price f, f_qty f, f_maker_out f) | EOut _ => None end.
Definition rest_view (bk : orderbook) (sd : side) : list (Z * Z * Z) :=
  map (fun e => (l_owner (snd e), eff_price 20 e, l_quantity (snd e))) (resting sd bk).

(** owner 3 sells 5 at 18: fills 2 at 20 with owner 2, then 3 at 18 with owner 1 *)
Example C09_example : exists bk mk q r Q new n n',
  ex_places = Some (bk, mk, q) /\
  order_call 16 8 bk (ex_lim Ask 18 5) mk q (of_int 20) ex_acc 3 1000 10 r 20 Q new n n' /\
  map fill_view new = [Some (2, 20, 2, true); Some (1, 18, 3, false)] /\
  rest_view (r_book r) Bid = [(1, 18, 4)] /\ r_id r = None.
Proof.
  destruct ex_places as [[[bk mk] q]|] eqn:E; [|vm_compute in E; discriminate].
  destruct (new_order bk (ex_lim Ask 18 5) mk q (of_int 20) ex_acc 3 1000 10) as [r|] eqn:EN.
  2:{ vm_compute in E. injection E as <- <- <-. vm_compute in EN. discriminate. }
  destruct (ex_call (ex_lim Ask 18 5) 3 10 ltac:(wf) bk mk q r E EN) as (Q & new & n & n' & HC & E1 & E2).
  exists bk, mk, q, r, Q, new, n, n'. split; [reflexivity|]. split; [exact HC|].
  clear HC. vm_compute in E. injection E as <- <- <-. vm_compute in EN. injection EN as <-.
  vm_compute in E1. injection E1 as <-. vm_compute in E2. injection E2 as <-. vm_compute. repeat split; reflexivity.
Qed.

(** owner 1 sends a sliding bid at 30 against the ask at 25: posted at 24 *)
Definition ex_slide : order := mkOrder Bid 4 1000 78 50 CancelProvide (PFixed 30 PTPostOnlySlide).
Example C10_example : exists bk mk q r Q new n n' e,
  ex_places = Some (bk, mk, q) /\
  order_call 16 8 bk ex_slide mk q (of_int 20) ex_acc 1 1000 10 r 20 Q new n n' /\
  asks_post_only ex_slide = true /\ new = [] /\ posted ex_slide r e /\ eff_price 20 e = 24 /\
  s_market (nth 0 (a_oo (r_acc r)) slot0) = 3 /\ s_qty (nth 0 (a_oo (r_acc r)) slot0) = 4.
Proof.
  destruct ex_places as [[[bk mk] q]|] eqn:E; [|vm_compute in E; discriminate].
  destruct (new_order bk ex_slide mk q (of_int 20) ex_acc 1 1000 10) as [r|] eqn:EN.
  2:{ vm_compute in E. injection E as <- <- <-. vm_compute in EN. discriminate. }
  destruct (ex_call ex_slide 1 10 ltac:(wf) bk mk q r E EN) as (Q & new & n & n' & HC & E1 & E2).
  exists bk, mk, q, r, Q, new, n, n'.
  pose proof (call_slots HC) as Hs.
  assert (Hid : exists id, r_id r = Some id /\ map (fun e => eff_price 20 e) (filter (fun e => l_key (snd e) =? id) (resting Bid (r_book r))) = [24]
     /\ s_market (nth 0 (a_oo (r_acc r)) slot0) = 3 /\ s_qty (nth 0 (a_oo (r_acc r)) slot0) = 4 /\ new = []).
  { clear HC Hs. vm_compute in E. injection E as <- <- <-. vm_compute in EN. injection EN as <-.
    vm_compute in E1. injection E1 as <-. vm_compute in E2. injection E2 as <-.
    eexists. split; [reflexivity|]. vm_compute. repeat split; reflexivity. }
  destruct Hid as (id & Eid & Hp & Hm & Hq & Hn). rewrite Eid in Hs. destruct Hs as (e & i & s & HP & _).
  exists e. split; [reflexivity|]. split; [exact HC|]. split; [reflexivity|]. split; [exact Hn|]. split; [exact HP|].
  split; [|auto]. destruct HP as [Hk Hin]. assert (In e (filter (fun e => l_key (snd e) =? id) (resting Bid (r_book r)))) as HF.
  { apply filter_In. split; [exact Hin|]. apply Z.eqb_eq. congruence. }
  apply (in_map (fun e => eff_price 20 e)) in HF. rewrite Hp in HF. destruct HF as [<-|[]]. reflexivity.
Qed.

(** owner 2 sells at market into its own best bid at 20 *)
Definition ex_self (b : stb) : order := mkOrder Ask 5 1000 79 0 b PMarket.
Example C12_example_decrement : exists bk mk q r Q new n n', ex_places = Some (bk, mk, q) /\
  order_call 16 8 bk (ex_self DecrementTake) mk q (of_int 20) ex_acc 2 1000 10 r 20 Q new n n' /\
  map fill_view new = [Some (2, 20, 2, true); Some (1, 18, 3, false)].
Proof.
  destruct ex_places as [[[bk mk] q]|] eqn:E; [|vm_compute in E; discriminate].
  destruct (new_order bk (ex_self DecrementTake) mk q (of_int 20) ex_acc 2 1000 10) as [r|] eqn:EN.
  2:{ vm_compute in E. injection E as <- <- <-. vm_compute in EN. discriminate. }
  destruct (ex_call (ex_self DecrementTake) 2 10 ltac:(wf) bk mk q r E EN) as (Q & new & n & n' & HC & E1 & E2).
  exists bk, mk, q, r, Q, new, n, n'. split; [reflexivity|]. split; [exact HC|].
  clear HC. vm_compute in E. injection E as <- <- <-. vm_compute in EN. injection EN as <-.
  vm_compute in E1. injection E1 as <-. vm_compute in E2. injection E2 as <-. vm_compute. reflexivity.
Qed.
Example C12_example_cancel : exists bk mk q r Q new n n', ex_places = Some (bk, mk, q) /\
  order_call 16 8 bk (ex_self CancelProvide) mk q (of_int 20) ex_acc 2 1000 10 r 20 Q new n n' /\
  map fill_view new = [None; Some (1, 18, 5, false)].
Proof.
  destruct ex_places as [[[bk mk] q]|] eqn:E; [|vm_compute in E; discriminate].
  destruct (new_order bk (ex_self CancelProvide) mk q (of_int 20) ex_acc 2 1000 10) as [r|] eqn:EN.
  2:{ vm_compute in E. injection E as <- <- <-. vm_compute in EN. discriminate. }
  destruct (ex_call (ex_self CancelProvide) 2 10 ltac:(wf) bk mk q r E EN) as (Q & new & n & n' & HC & E1 & E2).
  exists bk, mk, q, r, Q, new, n, n'. split; [reflexivity|]. split; [exact HC|].
  clear HC. vm_compute in E. injection E as <- <- <-. vm_compute in EN. injection EN as <-.
  vm_compute in E1. injection E1 as <-. vm_compute in E2. injection E2 as <-. vm_compute. reflexivity.
Qed.
Example C12_example_abort : forall bk mk q, ex_places = Some (bk, mk, q) ->
  new_order bk (ex_self AbortTransaction) mk q (of_int 20) ex_acc 2 1000 10 = None.
Proof. intros bk mk q E. vm_compute in E. injection E as <- <- <-. vm_compute. reflexivity. Qed.

(** C47 is FALSE for asks: an ask whose quote limit does not pay for one lot at the
    (better) price of the crossing bid is not matched, but its remainder is posted
    below that bid.  Bid resting at 20, ask at 10 with max_quote 15 posts 1 lot at 10. *)
Definition ex_cross : order := mkOrder Ask 5 15 80 0 DecrementTake (PFixed 10 PTLimit).
Theorem C47_posted_ask_not_crossing_refuted : exists cap capq bk o mk q oracle a pk now limit r ol Q new n n' e e',
  order_call cap capq bk o mk q oracle a pk now limit r ol Q new n n' /\ (0 < limit)%nat /\
  posted o r e /\ In e' (resting Bid bk) /\ In e' (resting Bid (r_book r)) /\ live Bid now ol e' /\
  l_owner (snd e') <> pk /\ new = [] /\ crosses Ask (eff_price ol e) (eff_price ol e').
Proof.
  destruct ex_places as [[[bk mk] q]|] eqn:E; [|vm_compute in E; discriminate].
  destruct (new_order bk ex_cross mk q (of_int 20) ex_acc 3 1000 10) as [r|] eqn:EN.
  2:{ vm_compute in E. injection E as <- <- <-. vm_compute in EN. discriminate. }
  destruct (ex_call ex_cross 3 10 ltac:(wf) bk mk q r E EN) as (Q & new & n & n' & HC & E1 & E2).
  exists 16%nat, 8%nat, bk, ex_cross, mk, q, (of_int 20), ex_acc, 3, 1000, 10%nat, r, 20, Q, new, n, n'.
  set (d := (false, mkLeaf 0 0 0 0 0 0 0 0 0) : entry).
  exists (hd d (filter (fun e => eff_price 20 e =? 10) (resting Ask (r_book r)))),
         (hd d (filter (fun e => eff_price 20 e =? 20) (resting Bid bk))).
  split; [exact HC|]. clear HC. vm_compute in E. injection E as <- <- <-. vm_compute in EN. injection EN as <-.
  vm_compute in E1. injection E1 as <-. vm_compute in E2. injection E2 as <-.
  split; [lia|]. split; [split; [vm_compute; reflexivity|vm_compute; auto]|].
  split; [vm_compute; auto|]. split; [vm_compute; auto|].
  split. { split; [vm_compute; intuition discriminate|discriminate]. }
  split; [discriminate|]. split; [reflexivity|]. vm_compute. discriminate.
Qed.
Print Assumptions C47_posted_ask_not_crossing_refuted.

(** owner 1 posts the sliding bid and then cancels it through slot 0; owner 2 with the
    same slots cannot *)
Example C17_example : exists bk mk q r bk' a',
  ex_places = Some (bk, mk, q) /\ new_order bk ex_slide mk q (of_int 20) ex_acc 1 1000 10 = Some r /\
  book_ok 16 (mk_seq (r_market r)) (r_book r) /\
  cancel_by_slot (r_book r) (r_acc r) 3 1 0 = Some (inl (bk', a')) /\
  rest_view bk' Bid = rest_view bk Bid /\ rest_view (r_book r) Bid <> rest_view bk Bid /\
  a' = ex_acc /\ cancel_by_slot (r_book r) (r_acc r) 3 2 0 = None /\
  cancel_all (r_book r) (r_acc r) 3 1 8 (Some Bid) 0 4 = Some (bk', a') /\
  cancel_all (r_book r) (r_acc r) 3 1 8 (Some Ask) 0 4 = Some (r_book r, r_acc r).
Proof.
  destruct ex_places as [[[bk mk] q]|] eqn:E; [|vm_compute in E; discriminate].
  destruct (new_order bk ex_slide mk q (of_int 20) ex_acc 1 1000 10) as [r|] eqn:EN.
  2:{ vm_compute in E. injection E as <- <- <-. vm_compute in EN. discriminate. }
  destruct (ex_call ex_slide 1 10 ltac:(wf) bk mk q r E EN) as (Q & new & n & n' & HC & E1 & E2).
  pose proof (call_book_ok HC) as Hok. clear HC.
  exists bk, mk, q, r. eexists _, _. split; [reflexivity|]. split; [exact EN|]. split; [exact Hok|].
  clear Hok E1 E2. vm_compute in E. injection E as <- <- <-. vm_compute in EN. injection EN as <-.
  split; [vm_compute; reflexivity|]. split; [vm_compute; reflexivity|]. split; [vm_compute; discriminate|].
  repeat split; vm_compute; reflexivity.
Qed.
