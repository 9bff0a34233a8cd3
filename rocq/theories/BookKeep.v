(** Placing an order keeps the book well formed. *)
From Coq Require Import List ZArith Lia Bool Arith Permutation Sorted.
From Verif Require Import OrderTree OrderTreeSpec KeyBits OrderTreeRep BookArena BookArenaProofs
  BookArenaFacts Keys Fixed BookSide BookSideSpec BookSideProofs BookSideView BookSideWorst EventQueue PerpTypes Book
  BookLoop BookApply BookPlace BookSpec BookFacts BookResults BookResults2 BookCancel.
Import ListNotations.
Open Scope Z_scope.

Definition empty_book (cap : nat) : orderbook := mkBook (bs_init cap) (bs_init cap).
Lemma empty_resting cap sd : resting sd (empty_book cap) = [].
Proof. destruct sd; reflexivity. Qed.
Lemma empty_book_ok cap seq : book_ok cap seq (empty_book cap).
Proof.
  intros sd. rewrite empty_resting. split; [destruct sd; apply reachable_init|].
  split; [intros l []|]. split; [intros e []|constructor].
Qed.

Section Call.
Context {cap capq : nat} {bk : orderbook} {o : order} {mk : market} {q : evq} {oracle : fx}
  {a : account} {pk now : Z} {limit : nat} {r : place_result} {ol : Z} {Q new : list event} {n n' : Z}.
Hypothesis H : order_call cap capq bk o mk q oracle a pk now limit r ol Q new n n'.

Lemma residual_in sd L e e' : In e' (residual sd L e) ->
  fst e' = fst e /\ l_key (snd e') = l_key (snd e) /\ l_quantity (snd e') = l_quantity (snd e) - filled_qty (l_key (snd e)) L /\
  l_quantity (snd e') <> 0.
Proof.
  unfold residual. destruct (outs _ _ _); [intros []|].
  destruct (Z.eqb_spec (filled_qty (l_key (snd e)) L) (l_quantity (snd e))); [intros []|].
  intros [<-|[]]. cbn. repeat split; lia.
Qed.
Lemma residual_nodup sd L es : NoDup (map (fun e : entry => seqno sd (snd e)) es) ->
  NoDup (map (fun e : entry => seqno sd (snd e)) (flat_map (residual sd L) es)).
Proof.
  induction es as [|e es IH]; cbn [map flat_map]; intros HN; [constructor|]. inversion HN as [|? ? Hn HN']; subst.
  rewrite map_app. specialize (IH HN').
  assert (Hd : residual sd L e = [] \/ exists e', residual sd L e = [e'] /\ seqno sd (snd e') = seqno sd (snd e)).
  { unfold residual. destruct (outs _ _ _); [left; reflexivity|]. destruct (_ =? _); [left; reflexivity|].
    right. eexists. split; reflexivity. }
  destruct Hd as [->|(e' & -> & Es)]; [exact IH|]. cbn [map app]. constructor; [|exact IH]. rewrite Es.
  intros Hin. apply Hn. apply in_map_iff in Hin as (y & Ey & Hy). apply in_flat_map in Hy as (z & Hz & Hyz).
  apply residual_in in Hyz as (_ & Hk & _). apply in_map_iff. exists z. split; [|exact Hz].
  rewrite <- Ey. symmetry. apply seqno_key, Hk.
Qed.

(** a resting order has never been filled by more than its quantity *)
Lemma filled_le e : In e (resting (negb (o_side o)) bk) -> 0 <= filled_qty (l_key (snd e)) new <= l_quantity (snd e).
Proof.
  intros He. open_call H.
  destruct pl_x0 as (Hx1 & _).
  assert (HN : NoDup (map (fun e : entry => l_key (snd e)) (resting (negb (o_side o)) bk))).
  { destruct (oc_book _ _ _ _ _ _ _ _ _ _ _ _ _ _ _ _ _ H (negb (o_side o))) as (_ & _ & _ & HN).
    revert HN. generalize (resting (negb (o_side o)) bk). clear. induction l as [|e L IH]; cbn [map]; intros HN; [constructor|].
    inversion HN as [|? ? Hn HN']; subst. constructor; [|apply IH, HN'].
    intros Hin. apply Hn. apply in_map_iff in Hin as (e' & E & He'). apply in_map_iff. exists e'. split; [|exact He'].
    apply seqno_key, E. }
  assert (HN2 : NoDup (map akey acts)).
  { rewrite <- Eo in HN. eapply Permutation_NoDup in HN; [|apply Permutation_map; exact pl_opp0].
    rewrite map_app in HN. rewrite map_app in HN. rewrite map_app in HN. rewrite <- app_assoc in HN.
    assert (Hkeys : map (fun e : entry => l_key (snd e)) (map entry_of (map fst acts)) = map akey acts) by (rewrite !map_map; reflexivity).
    rewrite Hkeys in HN. clear -HN. induction (map akey acts) as [|y L IH]; [constructor|]. inversion HN; subst.
    constructor; [|auto]. intros Hin. apply H1. apply in_or_app; left; exact Hin. }
  rewrite Enew, filled_app, filled_out, Z.add_0_r.
  assert (Hq : 0 < l_quantity (snd e)). { rewrite <- Eo in He. apply (proj2 Hoo e He). }
  destruct (in_dec Z.eq_dec (l_key (snd e)) (map akey acts)) as [Hin|Hin].
  - apply in_map_iff in Hin as (ia & Ek & Hia). rewrite <- Ek.
    destruct (acts_own x ia acts n HN2 Hia) as [_ ->].
    assert (Ee : entry_of (fst ia) = e).
    { assert (Hent : In (entry_of (fst ia)) (resting (negb (o_side o)) bk)).
      { rewrite <- Eo. eapply Permutation_in; [symmetry; exact pl_opp0|]. apply in_or_app; left. apply in_map.
        apply in_or_app; left. apply in_map. exact Hia. }
      assert (Hinj : forall L (y z : entry), NoDup (map (fun e : entry => l_key (snd e)) L) -> In y L -> In z L ->
         l_key (snd y) = l_key (snd z) -> y = z).
      { clear. induction L as [|w L IH]; intros y z HN Hy Hz E; [destruct Hy|]. inversion HN as [|? ? Hn HN']; subst.
        destruct Hy as [->|Hy], Hz as [->|Hz]; auto; exfalso; apply Hn.
        - rewrite E. apply (in_map (fun e : entry => l_key (snd e))), Hz.
        - rewrite <- E. apply (in_map (fun e : entry => l_key (snd e))), Hy. }
      apply (Hinj (resting (negb (o_side o)) bk)); auto. }
    destruct ia as [i ac]. cbn [fst] in Ee. unfold fq; cbn [snd].
    pose proof (run_in _ _ _ _ _ _ _ _ _ _ pl_run0 _ _ Hia) as Hr.
    destruct ac as [| | |k]; [lia..|]. destruct Hr as (_ & Hk & _). rewrite <- Ee. cbn [entry_of snd]. unfold qty in Hk. lia.
  - destruct (acts_other x acts n _ Hin) as [_ ->]. lia.
Qed.

Lemma call_book_ok : book_ok cap (mk_seq (r_market r)) (r_book r).
Proof.
  pose proof (oc_book _ _ _ _ _ _ _ _ _ _ _ _ _ _ _ _ _ H) as Hb.
  assert (Hseq : mk_seq (r_market r) = mk_seq mk + 1).
  { destruct (call_fees H) as (p & p' & _ & _ & _ & _ & E & _). rewrite E. reflexivity. }
  rewrite Hseq.
  assert (Hreach : forall sd, reachable sd cap (bk_get sd (r_book r))).
  { intros sd. open_call H. destruct (Bool.bool_dec sd (o_side o)) as [->|Hne]; [apply pl_own_view0|].
    assert (sd = negb (o_side o)) as -> by (apply neq_negb, Hne). apply pl_opp_view0. }
  intros sd. split; [apply Hreach|].
  destruct (Bool.bool_dec sd (o_side o)) as [->|Hne].
  - destruct (Hb (o_side o)) as (_ & H1 & H2 & H3).
    destruct (call_own_side H) as (removed & kept & P1 & Hcase).
    assert (Hk : forall e, In e kept -> In e (resting (o_side o) bk)).
    { intros e He. eapply Permutation_in; [symmetry; exact P1|]. apply in_or_app; right; exact He. }
    assert (HNk : NoDup (map (fun e : entry => seqno (o_side o) (snd e)) kept)).
    { eapply nodup_app_r. rewrite <- map_app. eapply Permutation_NoDup; [apply Permutation_map; exact P1|exact H3]. }
    destruct Hcase as [(e & Hp & P2 & _)|(_ & _ & P2)].
    + pose proof (call_slots H) as Hs. destruct Hp as [Hid Hin]. rewrite Hid in Hs.
      destruct Hs as (e1 & i & s & Hp1 & _ & _ & Hq & _ & _ & _ & _ & _ & Hsn & Hpt & _).
      assert (e1 = e) as ->.
      { destruct Hp1 as [Hid1 Hin1]. rewrite Hid in Hid1. injection Hid1 as Hk1.
        eapply Permutation_in in Hin1; [|exact P2]. destruct Hin1 as [E|Hin1]; [auto|]. exfalso.
        specialize (H2 e1 (Hk _ Hin1)). lia. }
      split; [|split].
      * intros l Hl. eapply Permutation_in in Hl; [|exact P2]. destruct Hl as [E|Hl]; [|apply H1, Hk, Hl].
        destruct (posted_entry H e Hp1) as (ol' & price & pd & id & x & acts & rest & es & rb & rq & d & lm & post' & U & bo'
          & removed' & R & bs' & p2 & bo & bs & -> & _ & _ & HP' & _ & Ep & _). subst e.
        destruct HP' as [pl_ol0 _ _ _ _ _ pl_price0 _ _ _ _ _ _ _ _ _ _ _ _ _ _ _ _].
        destruct (order_price_ok _ _ _ _ _ pl_price0 (oc_order _ _ _ _ _ _ _ _ _ _ _ _ _ _ _ _ _ H) (proj2 pl_ol0)) as (Hp & _).
        unfold eff_price in Ep. cbn [fst snd] in Ep. unfold fixed_ok. lia.
      * intros e' He'. eapply Permutation_in in He'; [|exact P2]. destruct He' as [<-|He'].
        { pose proof (oc_seq _ _ _ _ _ _ _ _ _ _ _ _ _ _ _ _ _ H). lia. }
        specialize (H2 e' (Hk _ He')). lia.
      * eapply Permutation_NoDup; [apply Permutation_map; symmetry; exact P2|]. cbn [map]. constructor; [|exact HNk].
        intros Hin'. apply in_map_iff in Hin' as (e' & E & He'). specialize (H2 e' (Hk _ He')). lia.
    + split; [|split].
      * intros l Hl. eapply Permutation_in in Hl; [|exact P2]. apply H1, Hk, Hl.
      * intros e' He'. eapply Permutation_in in He'; [|exact P2]. specialize (H2 e' (Hk _ He')). lia.
      * eapply Permutation_NoDup; [apply Permutation_map; symmetry; exact P2|exact HNk].
  - assert (sd = negb (o_side o)) as -> by (apply neq_negb, Hne). clear Hne.
    destruct (Hb (negb (o_side o))) as (_ & H1 & H2 & H3).
    pose proof (call_opposing H) as P.
    assert (Hin : forall e, In e (resting (negb (o_side o)) (r_book r)) -> exists e0, In e0 (resting (negb (o_side o)) bk) /\
       fst e = fst e0 /\ l_key (snd e) = l_key (snd e0) /\ 0 < l_quantity (snd e)).
    { intros e He. eapply Permutation_in in He; [|exact P]. apply in_flat_map in He as (e0 & He0 & He).
      apply residual_in in He as (E1 & E2 & E3 & E4). exists e0. repeat (split; [assumption|]).
      pose proof (filled_le e0 He0). lia. }
    split; [|split].
    + intros l Hl. destruct (Hin _ Hl) as ([c0 l0] & He0 & E1 & E2 & _). cbn [fst snd] in *. subst c0.
      specialize (H1 l0 He0). unfold fixed_ok in *. rewrite E2. exact H1.
    + intros e He. destruct (Hin _ He) as (e0 & He0 & E1 & E2 & E3). split; [exact E3|].
      rewrite (seqno_key _ _ _ E2). specialize (H2 e0 He0). lia.
    + eapply Permutation_NoDup; [apply Permutation_map; symmetry; exact P|]. apply residual_nodup, H3.
Qed.
End Call.
