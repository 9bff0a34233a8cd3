(** C65: orders rest only inside the price limit of the market. *)
From Coq Require Import List ZArith Lia Bool Arith Permutation Sorted.
From Verif Require Import OrderTree OrderTreeSpec KeyBits OrderTreeRep BookArena BookArenaProofs
  BookArenaFacts Keys Fixed BookSide BookSideSpec BookSideProofs BookSideView BookSideWorst EventQueue PerpTypes Book
  BookLoop BookApply BookPlace BookSpec BookFacts BookResults BookResults2.
Import ListNotations.
Open Scope Z_scope.

Lemma limit_checked : forall bk o mk q oracle a pk now limit r, 
  new_order bk o mk q oracle a pk now limit = Some r -> r_id r <> None ->
  forall ol L price pd, native_price_to_lot mk oracle = Some ol ->
  bs_items (negb (o_side o)) (bk_get (negb (o_side o)) bk) now ol = Some L ->
  order_price o ol (best_price (filter item_valid L)) = Some (price, pd) ->
  inside_price_limit mk (o_side o) (lot_to_native_price mk price) oracle = true.
Proof.
  intros bk o mk q oracle a pk now limit r H HID ol L price pd E1 E2 E3. unfold new_order in H. cbn zeta in H.
  rewrite E1, E2, E3 in H.
  destruct (gen_order_id (mk_seq mk) (o_side o) pd) as [[seq id]|]; [|discriminate].
  destruct (a_pos a) as [p|]; [|discriminate].
  set (mp := if needs_penalty o then apply_penalty (with_seq mk seq) p else (with_seq mk seq, p)) in H.
  assert (M1 : inside_price_limit (fst mp) (o_side o) (lot_to_native_price (fst mp) price) oracle =
               inside_price_limit mk (o_side o) (lot_to_native_price mk price) oracle).
  { unfold mp. destruct (needs_penalty o); reflexivity. }
  destruct mp as [mk1 p1]. cbn [fst] in M1. rewrite <- M1. clear M1.
  destruct (match_loop _ _ _) as [m|]; [|discriminate].
  destruct ((o_max_quote o - m_rem_quote m <? 0) || (o_max_base o - m_rem_base m <? 0)); [discriminate|].
  match type of H with (match ?X with _ => _ end) = _ => destruct X as [[mk2 p2]|] eqn:EX; [|discriminate] end.
  assert (M2 : inside_price_limit mk2 (o_side o) (lot_to_native_price mk2 price) oracle =
               inside_price_limit mk1 (o_side o) (lot_to_native_price mk1 price) oracle).
  { destruct ((0 <? o_max_quote o - m_rem_quote m) || (0 <? o_max_base o - m_rem_base m)).
    - unfold apply_fees in EX. destruct (o_max_quote o - m_rem_quote m - m_dec_quote m <? 0); [discriminate|].
      match type of EX with (if ?c then _ else _) = _ => destruct c; [discriminate|] end.
      assert (Em : mk2 = with_fees mk1 (mk_fees_accrued mk2)).
      { apply (f_equal (fun x => match x with Some y => fst y | None => mk2 end)) in EX. cbn [fst] in EX. rewrite <- EX. reflexivity. }
      rewrite Em. reflexivity.
    - congruence. }
  rewrite <- M2. clear M2.
  destruct (apply_changes _ _ _) as [s1|]; [|discriminate].
  destruct (apply_deletes _ _ _) as [s2|]; [|discriminate].
  destruct (if Z.min (m_rem_base m) (Z.quot (m_rem_quote m) price) <=? 0 then None else m_post m) as [c|].
  2:{ injection H as <-. cbn [r_id] in HID. congruence. }
  destruct (inside_price_limit mk2 (o_side o) (lot_to_native_price mk2 price) oracle); [reflexivity|].
  injection H as <-. cbn [r_id] in HID. congruence.
Qed.

(** The native price of [p] lots is [p * qls / bls]; weights and the oracle price
    are multiples of 2^-48.  An order that a call leaves resting is, up to one unit
    of the fixed-point format (2^-48),
    - for a bid: at most maint_base_liab_weight times the oracle price,
    - for an ask: at least maint_base_asset_weight times the oracle price. *)
Theorem C65_posted_inside_limit : forall cap capq bk o mk q oracle a pk now limit r ol Q new n n',
  order_call cap capq bk o mk q oracle a pk now limit r ol Q new n n' ->
  0 < mk_bls mk -> 0 < mk_qls mk ->
  forall e, posted o r e ->
  let p := eff_price ol e in
  if o_side o (* bid *)
  then p * mk_qls mk * 2 ^ 96 < (mk_maint_liab_w mk * oracle + 2 ^ 48) * mk_bls mk
  else (mk_maint_asset_w mk * oracle - 2 ^ 48) * mk_bls mk < p * mk_qls mk * 2 ^ 96.
Proof.
  intros cap capq bk o mk q oracle a pk now limit r ol Q new n n' H HB HQ e HP p.
  destruct (posted_entry H e HP) as (ol' & price & pd & id & x & acts & rest & es & rb & rq & d & lm & post' & U & bo'
    & removed & R & bs' & p2 & bo & bs & -> & Eo & Es & HP' & Enew & Ep & Es').
  destruct HP as [Hid _].
  assert (HL := limit_checked bk o mk q oracle a pk now limit r (oc_run _ _ _ _ _ _ _ _ _ _ _ _ _ _ _ _ _ H)).
  rewrite Hid in HL. specialize (HL ltac:(discriminate) ol _ price pd (oc_ol _ _ _ _ _ _ _ _ _ _ _ _ _ _ _ _ _ H)
    (pl_items _ _ _ _ _ _ _ _ _ _ _ _ _ _ _ _ _ _ _ _ _ _ _ _ _ _ _ _ _ _ _ _ _ _ _ _ _ HP')
    (pl_price _ _ _ _ _ _ _ _ _ _ _ _ _ _ _ _ _ _ _ _ _ _ _ _ _ _ _ _ _ _ _ _ _ _ _ _ _ HP')).
  fold p in Ep. rewrite <- Ep in HL.
  assert (Hp : 0 <= p * mk_qls mk * fone).
  { assert (0 < p).
    { rewrite Ep. pose proof (pl_price _ _ _ _ _ _ _ _ _ _ _ _ _ _ _ _ _ _ _ _ _ _ _ _ _ _ _ _ _ _ _ _ _ _ _ _ _ HP') as X.
      unfold order_price in X. destruct (o_params o) as [|pp|pp ty|off ty pl].
      all: repeat match type of X with context [match ?v with _ => _ end] => destruct v eqn:? end; try discriminate; injection X as <- _;
        repeat match goal with HH : (_ <=? _) = true |- _ => apply Z.leb_le in HH end; try lia. all: try (destruct (o_side o); unfold i64_max, i64_min in *; lia). }
    pose proof fone_pos. nia. }
  assert (HN : lot_to_native_price mk p = p * mk_qls mk * fone / mk_bls mk).
  { unfold lot_to_native_price, fdiv, fmul, of_int.
    replace (p * fone * (mk_qls mk * fone)) with (p * mk_qls mk * fone * fone) by ring.
    rewrite Z.div_mul by (pose proof fone_pos; lia).
    rewrite Z.quot_mul_cancel_r by (pose proof fone_pos; lia). apply Z.quot_div_nonneg; lia. }
  unfold inside_price_limit in HL. rewrite HN in HL.
  change (2 ^ 96) with (fone * fone). change (2 ^ 48) with fone.
  set (A := p * mk_qls mk * fone) in *.
  pose proof (Z.div_mod A (mk_bls mk) ltac:(lia)) as D. pose proof (Z.mod_pos_bound A (mk_bls mk) HB) as M.
  replace (p * mk_qls mk * (fone * fone)) with (A * fone) by (unfold A; ring).
  unfold fmul in HL. clearbody A. pose proof fone_pos as F. clear - HL D M HB F.
  set (f := fone) in *. clearbody f.
  destruct (o_side o); apply Z.leb_le in HL.
  - pose proof (Z.mul_div_le (mk_maint_liab_w mk * oracle) f F).
    set (b := mk_bls mk) in *. set (W := mk_maint_liab_w mk * oracle) in *. clearbody b W.
    assert (A < (W / f + 1) * b) by nia. assert (A * f < (W / f + 1) * b * f) by nia. nia.
  - pose proof (Z.mul_succ_div_gt (mk_maint_asset_w mk * oracle) f F).
    set (b := mk_bls mk) in *. set (W := mk_maint_asset_w mk * oracle) in *. clearbody b W.
    assert (W / f * b <= A) by nia. assert (W / f * b * f <= A * f) by nia. nia.
Qed.
Print Assumptions C65_posted_inside_limit.

From Verif Require Import BookKeep PropBook.
(** the state of [C10_example] (an order is posted) with positive lot sizes; and in
    the same state a bid and an ask beyond the limit are accepted but not posted *)
Example C65_example : exists bk mk q r Q new n n' e,
  order_call 16 8 bk ex_slide mk q (of_int 20) ex_acc 1 1000 10 r 20 Q new n n' /\
  0 < mk_bls mk /\ 0 < mk_qls mk /\ posted ex_slide r e.
Proof.
  destruct C10_example as (bk & mk & q & r & Q & new & n & n' & e & E & HC & _ & _ & HP & _).
  exists bk, mk, q, r, Q, new, n, n', e. split; [exact HC|]. split; [|split; [|exact HP]].
  - clear - E. vm_compute in E. injection E as <- <- <-. reflexivity.
  - clear - E. vm_compute in E. injection E as <- <- <-. reflexivity.
Qed.
Example C65_example_outside :
  (forall r, new_order (empty_book 16) (ex_lim Bid 100 7) ex_market ex_queue (of_int 20) ex_acc 1 1000 10 = Some r -> r_id r = None) /\
  (exists r, new_order (empty_book 16) (ex_lim Bid 100 7) ex_market ex_queue (of_int 20) ex_acc 1 1000 10 = Some r) /\
  (exists r, new_order (empty_book 16) (ex_lim Ask 1 7) ex_market ex_queue (of_int 20) ex_acc 1 1000 10 = Some r /\ r_id r = None).
Proof.
  split; [|split].
  - intros r H. vm_compute in H. injection H as <-. reflexivity.
  - eexists. vm_compute. reflexivity.
  - eexists. split; vm_compute; reflexivity.
Qed.
