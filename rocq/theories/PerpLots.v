(** Quantities are conserved by placing an order: book + events. *)
From Coq Require Import List ZArith Lia Bool Arith Permutation Sorted.
From Verif Require Import OrderTree OrderTreeSpec KeyBits OrderTreeRep BookArena BookArenaProofs
  BookArenaFacts Keys Fixed BookSide BookSideSpec BookSideProofs BookSideView BookSideWorst EventQueue PerpTypes Book
  BookLoop BookApply BookPlace BookSpec BookFacts BookResults BookResults2 BookCancel BookKeep PerpSystem PerpSpec.
Import ListNotations.
Open Scope Z_scope.

Lemma sumZ_perm L L' : Permutation L L' -> sumZ L = sumZ L'.
Proof. unfold sumZ. induction 1; cbn [fold_right]; lia. Qed.
Lemma owned_perm pk L L' : Permutation L L' -> owned pk L = owned pk L'.
Proof. intros P. apply sumZ_perm, Permutation_map, P. Qed.
Lemma owned_app pk A B : owned pk (A ++ B) = owned pk A + owned pk B.
Proof. unfold owned. rewrite map_app. apply sumZ_app. Qed.
Lemma owned_cons pk e B : owned pk (e :: B) = (if l_owner (snd e) =? pk then l_quantity (snd e) else 0) + owned pk B.
Proof. reflexivity. Qed.
Lemma in_flight_app sd pk A B : in_flight sd pk (A ++ B) = in_flight sd pk A + in_flight sd pk B.
Proof. unfold in_flight. rewrite map_app. apply sumZ_app. Qed.
Lemma in_flight_cons sd pk e Q : in_flight sd pk (e :: Q) = in_flight sd pk [e] + in_flight sd pk Q.
Proof. apply (in_flight_app sd pk [e] Q). Qed.
Lemma taking_app pk g A B : taking pk g (A ++ B) = taking pk g A + taking pk g B.
Proof. unfold taking. rewrite fills_app, map_app. apply sumZ_app. Qed.

Lemma in_flight_outs sd now pk L : forall seq, in_flight sd pk (out_events sd now seq L) = owned pk L.
Proof.
  induction L as [|e L IH]; intros seq; cbn [out_events]; [reflexivity|].
  rewrite in_flight_cons, owned_cons, IH. unfold in_flight, sumZ, out_of_leaf. cbn [map fold_right u_owner u_side u_qty].
  rewrite eqb_reflx, andb_true_r. lia.
Qed.
Lemma in_flight_outs_other sd now pk L : forall seq, in_flight (negb sd) pk (out_events sd now seq L) = 0.
Proof.
  induction L as [|e L IH]; intros seq; cbn [out_events]; [reflexivity|].
  rewrite in_flight_cons, IH. unfold in_flight, sumZ, out_of_leaf. cbn [map fold_right u_owner u_side u_qty].
  rewrite eqb_negb2, andb_false_r. lia.
Qed.
Lemma in_flight_acts x pk : forall acts seq, 
  in_flight (negb (o_side (x_order x))) pk (act_events x seq acts) + owned pk (flat_map after_act acts) =
  owned pk (map entry_of (map fst acts)).
Proof.
  induction acts as [|[i a] acts IH]; intros seq; [reflexivity|]. cbn [map fst act_events flat_map].
  specialize (IH (seq + Z.of_nat (length (act_event x seq (i, a))))).
  rewrite in_flight_app, owned_app, owned_cons.
  enough (E : in_flight (negb (o_side (x_order x))) pk (act_event x seq (i, a)) + owned pk (after_act (i, a)) =
    if l_owner (snd (entry_of i)) =? pk then l_quantity (snd (entry_of i)) else 0) by lia.
  cbn [entry_of snd]. destruct a as [| | |k]; cbn [act_event after_act].
  - unfold in_flight, owned, sumZ; cbn [map fold_right entry_of snd]. lia.
  - unfold in_flight, owned, sumZ, out_of_leaf; cbn [map fold_right u_owner u_side u_qty]. rewrite eqb_reflx, andb_true_r. lia.
  - unfold in_flight, owned, sumZ, out_of_leaf; cbn [map fold_right u_owner u_side u_qty]. rewrite eqb_reflx, andb_true_r. lia.
  - unfold make_fill, in_flight, sumZ; cbn [map fold_right f_maker f_taker_side f_qty]. rewrite negb_involutive, eqb_reflx, andb_true_r.
    unfold qty. destruct (Z.eqb_spec (l_quantity (it_leaf i) - k) 0); unfold owned, sumZ; cbn [map fold_right snd l_owner l_quantity];
      cbn; destruct (l_owner (it_leaf i) =? pk); lia.
Qed.
Lemma in_flight_acts_other x pk : forall acts seq, in_flight (o_side (x_order x)) pk (act_events x seq acts) = 0.
Proof.
  induction acts as [|[i a] acts IH]; intros seq; [reflexivity|]. cbn [act_events].
  rewrite in_flight_app, IH. destruct a as [| | |k]; cbn [act_event]; unfold in_flight, sumZ, out_of_leaf, make_fill;
    cbn [map fold_right u_owner u_side u_qty f_maker f_taker_side f_qty];
    destruct (o_side (x_order x)); cbn; rewrite ?andb_false_r; reflexivity.
Qed.

Lemma side_lots_adjust sd p k : side_lots sd (adjust_maker_lots p sd k) = side_lots sd p + k.
Proof. destruct sd; reflexivity. Qed.
Lemma side_lots_adjust_other sd p k : side_lots (negb sd) (adjust_maker_lots p sd k) = side_lots (negb sd) p.
Proof. destruct sd; reflexivity. Qed.

Section Call.
Context {cap capq : nat} {bk : orderbook} {o : order} {mk : market} {q : evq} {oracle : fx}
  {a : account} {pk now : Z} {limit : nat} {r : place_result} {ol : Z} {Q new : list event} {n n' : Z}.
Hypothesis H : order_call cap capq bk o mk q oracle a pk now limit r ol Q new n n'.
Local Notation sd := (o_side o).
Local Notation os := (negb (o_side o)).

(** quantity of the posted order *)
Definition posted_qty (o : order) (r : place_result) : Z :=
  match r_id r with None => 0 | Some id =>
      sumZ (map (fun e : entry => l_quantity (snd e)) (filter (fun e : entry => l_key (snd e) =? id) (resting (o_side o) (r_book r)))) end.

Lemma call_lots_other pk' : owned pk' (resting os bk) = owned pk' (resting os (r_book r)) + in_flight os pk' new.
Proof.
  open_call H. rewrite <- Eo, <- Eo', Enew, in_flight_app, in_flight_outs_other.
  rewrite (owned_perm _ _ _ pl_opp0), (owned_perm _ _ _ pl_opp'0). rewrite map_app, !owned_app.
  destruct pl_x0 as (Hx1 & _). pose proof (in_flight_acts x pk' acts n) as E. rewrite Hx1 in E. lia.
Qed.

Lemma call_lots_own pk' : owned pk' (resting sd bk) + (if pk =? pk' then posted_qty o r else 0) =
  owned pk' (resting sd (r_book r)) + in_flight sd pk' new.
Proof.
  destruct (call_fees H) as (p & p' & Hp & Hp' & _ & _ & _ & _ & _ & _ & _ & _ & _ & _ & Hside).
  change (side_lots sd p' = side_lots sd p + posted_qty o r) in Hside.
  open_call H. rewrite <- Es, Enew, in_flight_app, in_flight_outs.
  destruct pl_x0 as (Hx1 & _). pose proof (in_flight_acts_other x pk' acts n) as E0. rewrite Hx1 in E0. rewrite E0.
  rewrite <- Es'. rewrite (owned_perm _ _ _ pl_own0), (owned_perm _ _ _ pl_own'0), !owned_app.
  destruct pl_pos0 as (p0 & Hp0 & Ep2).
  assert (Hlots : side_lots sd p2 = side_lots sd p).
  { rewrite Hp in Hp0. injection Hp0 as <-. rewrite Ep2. unfold side_lots, record_trading_fee, add_taker_trade.
    destruct sd, (took acts), (needs_penalty o); reflexivity. }
  destruct post as [[c l]|].
  - destruct pl_post0 as (_ & _ & Hri & _ & _ & sl & Hsl & El & Hadd).
    unfold add_perp_order in Hadd. cbn [set_pos a_pos] in Hadd. destruct (slot_at _ _); [|discriminate].
    injection Hadd as Hadd. rewrite <- Hadd in Hp'. cbn in Hp'. injection Hp' as Hp'.
    assert (Hq : posted_qty o r = l_quantity l).
    { rewrite <- Hp' in Hside. rewrite side_lots_adjust, Hlots in Hside. lia. }
    rewrite Hq. change (owned pk' [(c, l)]) with ((if l_owner l =? pk' then l_quantity l else 0) + 0).
    assert (Ho : l_owner l = pk) by (rewrite El; reflexivity). rewrite Ho. lia.
  - destruct pl_post0 as [_ Hn]. unfold posted_qty. rewrite Hn. change (owned pk' []) with 0.
    destruct (pk =? pk'); lia.
Qed.

Lemma call_taking pk' g :
  taking pk' g new = if pk =? pk' then (if sd then 1 else -1) * sumZ (map g (fills new)) else 0.
Proof.
  pose proof (call_fill_prices H) as HF. unfold taking. induction (fills new) as [|f L IH]; cbn [map sumZ fold_right].
  - unfold sumZ; cbn. destruct (pk =? pk'), sd; reflexivity.
  - unfold sumZ in *; cbn [fold_right]. rewrite IH by (intros f0 Hf0; apply HF; right; exact Hf0).
    destruct (HF f (or_introl eq_refl)) as (-> & -> & _). destruct (pk =? pk'), sd; lia.
Qed.
End Call.
