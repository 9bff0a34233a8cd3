(** Invariants of all histories of a perp market: open-order slots. *)
From Coq Require Import List ZArith Lia Bool Arith Permutation Sorted.
From Verif Require Import OrderTree OrderTreeSpec KeyBits OrderTreeRep BookArena BookArenaProofs
  BookArenaFacts Keys Fixed BookSide BookSideSpec BookSideProofs BookSideView BookSideWorst EventQueue PerpTypes Book
  BookLoop BookApply BookPlace BookSpec BookFacts BookResults BookResults2 BookCancel BookKeep PropBook PerpSystem PerpSpec PerpLots PerpInv.
Import ListNotations.
Open Scope Z_scope.

(** sequence number inside an order id of side [sd] *)
Definition seqn (sd : side) (id : Z) : Z := if sd then u64_max - id mod 2 ^ 64 else id mod 2 ^ 64.
Lemma seqno_seqn sd l : seqno sd l = seqn sd (l_key l). Proof. reflexivity. Qed.
Lemma seqn_side sd sd' id m : 1 <= seqn sd id <= m -> 1 <= seqn sd' id <= m -> m < 2 ^ 63 -> sd = sd'.
Proof. unfold seqn, u64_max. destruct sd, sd'; intros; try reflexivity; exfalso; lia. Qed.
Lemma seqn_nonzero sd id m : 1 <= seqn sd id <= m -> m < 2 ^ 63 -> id <> 0.
Proof. unfold seqn, u64_max. intros H1 H2 ->. rewrite Z.mod_0_l in H1 by discriminate. destruct sd; lia. Qed.

Definition ev_side (e : event) : side := match e with EFill f => negb (f_taker_side f) | EOut u => u_side u end.
Definition ev_id (e : event) : Z := match e with EFill f => f_maker_id f | EOut u => u_id u end.

Lemma in_fills f Q : In f (fills Q) <-> In (EFill f) Q.
Proof.
  unfold fills. rewrite in_flat_map. split.
  - intros (e & He & Hf). destruct e; [|destruct Hf]. destruct Hf as [->|[]]. exact He.
  - intros H. exists (EFill f). split; [exact H|left; reflexivity].
Qed.
Lemma filled_cons id e Q : filled_qty id (e :: Q) =
  (match e with EFill f => if f_maker_id f =? id then f_qty f else 0 | EOut _ => 0 end) + filled_qty id Q.
Proof.
  unfold filled_qty, sumZ. destruct e as [f|u]; cbn [fills flat_map app filter]; fold (fills Q); [|lia].
  destruct (f_maker_id f =? id); cbn [map fold_right]; lia.
Qed.
Lemma filled_nonneg id Q : (forall e, In e Q -> ev_pos e) -> 0 <= filled_qty id Q.
Proof.
  induction Q as [|e Q IH]; intros HP; [reflexivity|]. rewrite filled_cons.
  specialize (IH (fun e H => HP e (or_intror H))). pose proof (HP e (or_introl eq_refl)) as He.
  destruct e as [f|u]; cbn [ev_pos] in He; [destruct (_ =? _)|]; lia.
Qed.
Lemma filled_zero id Q : (forall f, In (EFill f) Q -> f_maker_id f <> id) -> filled_qty id Q = 0.
Proof.
  induction Q as [|e Q IH]; intros HP; [reflexivity|]. rewrite filled_cons, IH by (intros f Hf; apply HP; right; exact Hf).
  destruct e as [f|u]; [|reflexivity]. destruct (Z.eqb_spec (f_maker_id f) id) as [E|]; [|reflexivity].
  exfalso. apply (HP f (or_introl eq_refl) E).
Qed.
Lemma filled_ge id Q f : (forall e, In e Q -> ev_pos e) -> In (EFill f) Q -> f_maker_id f = id -> f_qty f <= filled_qty id Q.
Proof.
  induction Q as [|e Q IH]; intros HP Hin E; [destruct Hin|]. rewrite filled_cons.
  pose proof (filled_nonneg id Q (fun e H => HP e (or_intror H))) as Hn.
  pose proof (HP e (or_introl eq_refl)) as He.
  destruct Hin as [->|Hin].
  - rewrite E, Z.eqb_refl. lia.
  - specialize (IH (fun e H => HP e (or_intror H)) Hin E). destruct e as [g|u]; cbn [ev_pos] in He; [destruct (_ =? _)|]; lia.
Qed.

Lemma slot_upd_other a a' i j x : a_oo a' = upd (a_oo a) (Z.to_nat i) x -> 0 <= i -> i <> j -> slot_at a' j = slot_at a j.
Proof.
  intros E Hi Hne. unfold slot_at. destruct (Z.ltb_spec j 0); [reflexivity|]. rewrite E. apply OrderTreeRep.upd_other. lia.
Qed.
Lemma slot_upd_same a a' i s x : a_oo a' = upd (a_oo a) (Z.to_nat i) x -> slot_at a i = Some s -> slot_at a' i = Some x.
Proof.
  intros E Hs. pose proof (slot_at_nonneg _ _ _ Hs). pose proof (slot_at_lt _ _ _ Hs) as Hlt. unfold slot_at.
  destruct (Z.ltb_spec i 0); [lia|]. rewrite E. apply OrderTreeRep.upd_same. exact Hlt.
Qed.

(** two resting orders of a side with the same id are the same *)
Lemma resting_inj cap seq bk sd e e' : book_ok cap seq bk -> In e (resting sd bk) -> In e' (resting sd bk) ->
  l_key (snd e) = l_key (snd e') -> e = e'.
Proof.
  intros Hb He He' E. destruct (Hb sd) as (_ & _ & _ & HN). revert HN He He'. generalize (resting sd bk).
  induction l as [|y L IH]; intros HN He He'; [destruct He|]. cbn [map] in HN. inversion HN as [|? ? Hn HN']; subst.
  destruct He as [->|He], He' as [->|He']; auto; exfalso; apply Hn.
  - rewrite (seqno_key sd _ _ E). apply (in_map (fun e : entry => seqno sd (snd e))), He'.
  - rewrite <- (seqno_key sd _ _ E). apply (in_map (fun e : entry => seqno sd (snd e))), He.
Qed.

(** ** what an order call does to resting orders and which events it appends *)
Section Call.
Context {cap capq : nat} {bk : orderbook} {o : order} {mk : market} {q : evq} {oracle : fx}
  {a : account} {pk now : Z} {limit : nat} {r : place_result} {ol : Z} {Q new : list event} {n n' : Z}.
Hypothesis H : order_call cap capq bk o mk q oracle a pk now limit r ol Q new n n'.
Local Notation sd := (o_side o).
Local Notation os := (negb (o_side o)).

Lemma out_events_in s now0 ev : forall L m, In ev (out_events s now0 m L) -> exists m' e, In e L /\ ev = out_of_leaf s now0 m' (snd e).
Proof.
  induction L as [|e L IH]; intros m Hin; [destruct Hin|]. cbn [out_events] in Hin. destruct Hin as [<-|Hin].
  - exists m, e. split; [left; reflexivity|reflexivity].
  - destruct (IH _ Hin) as (m' & e' & He' & E). exists m', e'. split; [right; exact He'|exact E].
Qed.
Lemma act_events_out x u : forall acts m, In (EOut u) (act_events x m acts) ->
  exists m' i ac, In (i, ac) acts /\ EOut u = out_of_leaf (negb (o_side (x_order x))) (x_now x) m' (it_leaf i).
Proof.
  induction acts as [|[i ac] acts IH]; intros m Hin; [destruct Hin|]. cbn [act_events] in Hin. apply in_app_or in Hin as [Hin|Hin].
  - destruct ac; cbn [act_event] in Hin; unfold make_fill in Hin; destruct Hin as [Hin|[]] || destruct Hin; try discriminate;
      (eexists; exists i; eexists; split; [left; reflexivity|]; symmetry; exact Hin).
  - destruct (IH _ Hin) as (m' & i' & ac' & Hi & E). exists m', i', ac'. split; [right; exact Hi|exact E].
Qed.

Lemma call_out_source u : In (EOut u) new -> exists e, In e (resting (u_side u) bk) /\ l_key (snd e) = u_id u /\
  l_owner (snd e) = u_owner u /\ l_owner_slot (snd e) = u_slot u /\
  (u_side u = sd -> forall e', In e' (resting sd (r_book r)) -> l_key (snd e') <> u_id u).
Proof.
  intros Hu. pose proof (oc_book _ _ _ _ _ _ _ _ _ _ _ _ _ _ _ _ _ H) as Hb.
  pose proof (call_book_ok H) as Hb'.
  open_call H. rewrite Enew in Hu. apply in_app_or in Hu as [Hu|Hu].
  - destruct (act_events_out _ _ _ _ Hu) as (m' & i & ac & Hi & E). unfold out_of_leaf in E. injection E as ->. cbn [u_side u_id u_owner u_slot].
    destruct pl_x0 as (Hx1 & _). rewrite Hx1. exists (entry_of i). cbn [entry_of snd].
    split; [|repeat (split; [reflexivity|]); intros E; destruct sd; discriminate].
    rewrite <- Eo. eapply Permutation_in; [symmetry; exact pl_opp0|]. apply in_or_app; left. apply in_map.
    apply in_or_app; left. change i with (fst (i, ac)). apply in_map. exact Hi.
  - destruct (out_events_in _ _ _ _ _ Hu) as (m' & e & He & E). unfold out_of_leaf in E. injection E as ->. cbn [u_side u_id u_owner u_slot].
    assert (Hin : In e (resting (o_side o) bk)).
    { rewrite <- Es. eapply Permutation_in; [symmetry; exact pl_own0|]. apply in_or_app; left; exact He. }
    exists e. split; [exact Hin|]. repeat (split; [reflexivity|]). intros _ e' He' Ek.
    rewrite <- Es' in He'. eapply Permutation_in in He'; [|exact pl_own'0]. apply in_app_or in He' as [He'|He'].
    + destruct post as [[c l]|]; [|destruct He']. destruct He' as [<-|[]]. cbn [snd] in Ek.
      destruct pl_post0 as (_ & _ & _ & _ & _ & sl & _ & El & _).
      assert (Hsn : seqno (o_side o) l = mk_seq mk + 1).
      { destruct pl_id0 as [Eid Hsq]. assert (Hs2 : in_u64 (mk_seq mk + 1)).
        { unfold in_u64. pose proof (oc_seq _ _ _ _ _ _ _ _ _ _ _ _ _ _ _ _ _ H). lia. }
        rewrite <- (seqno_new (o_side o) pd (mk_seq mk + 1) Hs2). apply seqno_key. rewrite El. exact Eid. }
      rewrite (seqno_key _ _ _ Ek) in Hsn. destruct (Hb (o_side o)) as (_ & _ & H2 & _). specialize (H2 e Hin). lia.
    + destruct (Hb (o_side o)) as (_ & _ & _ & HN). rewrite <- Es in HN.
      eapply Permutation_NoDup in HN; [|apply Permutation_map; exact pl_own0]. rewrite map_app in HN.
      assert (Hd : forall L L' (y : Z), NoDup (L ++ L') -> In y L -> In y L' -> False).
      { clear. induction L as [|z L IH]; intros L' y HN Hy Hy'; [destruct Hy|]. inversion HN; subst. destruct Hy as [->|Hy].
        - apply H1. apply in_or_app; right; exact Hy'.
        - eapply IH; eauto. }
      apply (Hd _ _ (seqno (o_side o) (snd e)) HN).
      * apply (in_map (fun e : entry => seqno (o_side o) (snd e))), He.
      * rewrite <- (seqno_key _ _ _ Ek). apply (in_map (fun e : entry => seqno (o_side o) (snd e))), He'.
Qed.

Lemma call_out_gone u e' : In (EOut u) new -> In e' (resting (u_side u) (r_book r)) -> l_key (snd e') <> u_id u.
Proof.
  intros Hu He' Ek. destruct (call_out_source u Hu) as (e & He & Ek0 & _ & _ & Hown).
  destruct (Bool.bool_dec (u_side u) sd) as [E|E].
  - rewrite E in He'. exact (Hown E e' He' Ek).
  - apply neq_negb in E. rewrite E in He'. eapply Permutation_in in He'; [|apply (call_opposing H)].
    apply in_flat_map in He' as (e0 & He0 & He'). unfold residual in He'.
    assert (Ho : outs os (l_key (snd e0)) new = true).
    { assert (Hk : l_key (snd e0) = u_id u).
      { assert (X : In e' (residual os new e0)) by exact He'. apply residual_in in X as (_ & X & _). congruence. }
      rewrite Hk. unfold outs. apply existsb_exists. exists (EOut u). split; [exact Hu|]. rewrite E, eqb_reflx, Z.eqb_refl. reflexivity. }
    rewrite Ho in He'. destruct He'.
Qed.

Lemma call_after s e' : In e' (resting s (r_book r)) ->
  (s = sd /\ seqno s (snd e') = mk_seq mk + 1 /\ posted o r e') \/
  (exists e, In e (resting s bk) /\ fst e' = fst e /\ l_key (snd e') = l_key (snd e) /\ l_owner (snd e') = l_owner (snd e) /\
     l_owner_slot (snd e') = l_owner_slot (snd e) /\
     l_quantity (snd e') = l_quantity (snd e) - (if Bool.eqb s os then filled_qty (l_key (snd e)) new else 0)).
Proof.
  intros He'. destruct (Bool.bool_dec s sd) as [->|Hne].
  - rewrite eqb_negb2. destruct (call_own_side H) as (removed & kept & P1 & Hcase).
    assert (Hk : forall e, In e kept -> In e (resting sd bk)).
    { intros e He. eapply Permutation_in; [symmetry; exact P1|]. apply in_or_app; right; exact He. }
    destruct Hcase as [(e & Hp & P2 & _)|(_ & _ & P2)].
    + eapply Permutation_in in He'; [|exact P2]. destruct He' as [<-|He'].
      * left. split; [reflexivity|]. split; [|exact Hp]. pose proof (call_slots H) as Hs. destruct Hp as [Hid Hin]. rewrite Hid in Hs.
        destruct Hs as (e1 & i & s0 & Hp1 & _ & _ & _ & _ & _ & _ & _ & _ & Hsn & _).
        destruct Hp1 as [Hid1 _]. rewrite Hid in Hid1. injection Hid1 as Hid1. rewrite (seqno_key _ _ _ Hid1). exact Hsn.
      * right. exists e'. rewrite Z.sub_0_r. auto 10.
    + right. eapply Permutation_in in He'; [|exact P2]. exists e'. rewrite Z.sub_0_r. auto 10.
  - right. apply neq_negb in Hne. subst s. rewrite eqb_reflx. eapply Permutation_in in He'; [|apply (call_opposing H)].
    apply in_flat_map in He' as (e & He & He'). exists e. split; [exact He|].
    unfold residual in He'. destruct (outs _ _ _); [destruct He'|]. destruct (_ =? _); [destruct He'|].
    destruct He' as [<-|[]]. cbn. auto 10.
Qed.
End Call.

Record sinv (y : sys) (Q : list event) : Prop := mkSinv {
  si_rec : forall sd e, In e (resting sd (y_bk y)) -> recorded (mk_index (y_mk y)) (y_accs y) Q sd e;
  si_ev : forall ev, In ev Q -> 1 <= seqn (ev_side ev) (ev_id ev) <= mk_seq (y_mk y);
  si_fe : forall f e, In (EFill f) Q -> In e (resting (negb (f_taker_side f)) (y_bk y)) -> l_key (snd e) = f_maker_id f ->
     f_maker_out f = false /\ f_maker f = l_owner (snd e) /\ f_maker_slot f = l_owner_slot (snd e);
  si_oe : forall u e, In (EOut u) Q -> In e (resting (u_side u) (y_bk y)) -> l_key (snd e) <> u_id u }.

(** the slots of this market are still there *)
Definition keeps (mkt : Z) (A A' : list (Z * account)) : Prop :=
  forall pk a i s, aget A pk = Some a -> slot_at a i = Some s -> s_market s = mkt ->
    exists a', aget A' pk = Some a' /\ slot_at a' i = Some s.
Lemma recorded_keeps mkt A A' Q sd e : keeps mkt A A' -> recorded mkt A Q sd e -> recorded mkt A' Q sd e.
Proof.
  intros HK (a & s & Ha & Hs & Hm & Hrest). destruct (HK _ _ _ _ Ha Hs Hm) as (a' & Ha' & Hs'). exists a', s. auto 10.
Qed.
Lemma keeps_refl mkt A : keeps mkt A A. Proof. intros pk a i s Ha Hs _. eauto. Qed.
Lemma keeps_trans mkt A B C : keeps mkt A B -> keeps mkt B C -> keeps mkt A C.
Proof. intros H1 H2 pk a i s Ha Hs Hm. destruct (H1 _ _ _ _ Ha Hs Hm) as (b & Hb & Hsb). eauto. Qed.
Lemma keeps_aset mkt A pk a' : (forall a i s, aget A pk = Some a -> slot_at a i = Some s -> s_market s = mkt -> slot_at a' i = Some s) ->
  keeps mkt A (aset A pk a').
Proof.
  intros Hk pk' a i s Ha Hs Hm. rewrite aget_aset. destruct (Z.eqb_spec pk pk') as [E|]; [subst pk'|]; eauto.
Qed.
Lemma keeps_aset_oo mkt A pk a a' : aget A pk = Some a -> a_oo a' = a_oo a -> keeps mkt A (aset A pk a').
Proof.
  intros Ha E. apply keeps_aset. intros a0 i s Ha0 Hs _. rewrite Ha in Ha0. injection Ha0 as <-. unfold slot_at in *. rewrite E. exact Hs.
Qed.

Lemma sinv_keeps y Q A mk' : sinv y Q -> mk_index mk' = mk_index (y_mk y) -> mk_seq mk' = mk_seq (y_mk y) ->
  keeps (mk_index (y_mk y)) (y_accs y) A -> sinv (mkSys (y_bk y) mk' (y_q y) A) Q.
Proof.
  intros [S1 S2 S3 S4] E1 E2 HK. constructor; cbn [y_bk y_mk y_accs]; rewrite ?E1, ?E2; auto.
  intros sd e He. eapply recorded_keeps; eauto.
Qed.

Lemma sinv_place cap capq y Q n pk a o oracle now limit r ol new n' :
  inv cap capq y Q n -> sinv y Q -> aget (y_accs y) pk = Some a ->
  order_call cap capq (y_bk y) o (y_mk y) (y_q y) oracle (ensure_position a) pk now limit r ol Q new n n' ->
  inv cap capq (mkSys (r_book r) (r_market r) (r_q r) (aset (y_accs y) pk (r_acc r))) (Q ++ new) n' ->
  mk_seq (r_market r) < 2 ^ 63 ->
  sinv (mkSys (r_book r) (r_market r) (r_q r) (aset (y_accs y) pk (r_acc r))) (Q ++ new).
Proof.
  intros HI [S1 S2 S3 S4] Ha HC HI' Hbound.
  assert (Hm : mk_index (r_market r) = mk_index (y_mk y) /\ mk_seq (r_market r) = mk_seq (y_mk y) + 1).
  { destruct (call_fees HC) as (? & ? & _ & _ & _ & _ & E & _). rewrite E. auto. }
  destruct Hm as [M1 M2]. pose proof (iv_book _ _ _ _ _ HI) as Hb. pose proof (iv_seq _ _ _ _ _ HI) as Hs0.
  assert (Hrng : forall s e, In e (resting s (y_bk y)) -> 1 <= seqn s (l_key (snd e)) <= mk_seq (y_mk y)).
  { intros s e He. destruct (Hb s) as (_ & _ & H2 & _). apply (H2 e He). }
  assert (Hrng' : forall s e, In e (resting s (r_book r)) -> 1 <= seqn s (l_key (snd e)) <= mk_seq (y_mk y) + 1).
  { intros s e He. destruct (call_book_ok HC s) as (_ & _ & H2 & _). rewrite <- M2. apply (H2 e He). }
  assert (Hnew : forall ev, In ev new -> 1 <= seqn (ev_side ev) (ev_id ev) <= mk_seq (y_mk y)).
  { intros [f|u] Hev; cbn [ev_side ev_id].
    - destruct (call_fill_prices HC f) as (_ & Hts & (e & He & _ & _ & Hid & _) & _); [apply in_fills, Hev|].
      rewrite Hid, Hts. apply Hrng, He.
    - destruct (call_out_source HC u Hev) as (e & He & Hk & _). rewrite <- Hk. apply Hrng, He. }
  assert (Hall : forall ev, In ev (Q ++ new) -> 1 <= seqn (ev_side ev) (ev_id ev) <= mk_seq (y_mk y)).
  { intros ev Hev. apply in_app_or in Hev as [Hev|Hev]; auto. }
  constructor; cbn [y_bk y_mk y_accs]; rewrite ?M1, ?M2.
  - intros s e' He'. destruct (call_after HC s e' He') as [(-> & Hsq & Hp)|(e & He & E1 & E2 & E3 & E4 & E5)].
    + pose proof (call_slots HC) as Hs. pose proof Hp as [Hid _]. rewrite Hid in Hs.
      destruct Hs as (e1 & i & s & Hp1 & Hsl & Hfree & Hq & Hown & Hosl & Hcl & _ & _ & _ & Hpt & Hoo).
      assert (e1 = e') as ->.
      { destruct Hp1 as [Hid1 Hin1]. rewrite Hid in Hid1. injection Hid1 as Hid1.
        apply (resting_inj _ _ _ _ _ _ (call_book_ok HC) Hin1 He'). symmetry. exact Hid1. }
      exists (r_acc r). eexists. rewrite Hown, aget_aset, Z.eqb_refl. split; [reflexivity|].
      rewrite Hosl. rewrite (slot_upd_same _ _ _ _ _ Hoo Hsl). split; [reflexivity|]. cbn.
      repeat (split; [reflexivity|]). rewrite filled_zero; [lia|]. intros f Hf Ef.
      specialize (Hall _ Hf). cbn [ev_side ev_id] in Hall. rewrite Ef in Hall.
      rewrite seqno_seqn in Hsq.
      assert (Hs2 : o_side o = negb (f_taker_side f)) by (eapply (seqn_side _ _ _ (mk_seq (y_mk y) + 1)); [rewrite Hsq| |]; lia).
      rewrite <- Hs2 in Hall. lia.
    + apply (recorded_keeps _ (y_accs y)).
      { apply keeps_aset. intros a0 i s0 Ha0 Hs1 Hmk. rewrite Ha in Ha0. injection Ha0 as <-.
        assert (Hens : slot_at (ensure_position a) i = slot_at a i) by (unfold ensure_position; destruct (a_pos a); reflexivity).
        rewrite <- Hens in Hs1.
        pose proof (call_slots HC) as Hs. destruct (r_id r) as [id|].
        - destruct Hs as (e1 & i1 & s1 & _ & Hsl & Hfree & _ & _ & _ & _ & _ & _ & _ & _ & Hoo).
          assert (i1 <> i).
          { intros ->. rewrite Hs1 in Hsl. injection Hsl as <-. apply (iv_idx _ _ _ _ _ HI). congruence. }
          rewrite (slot_upd_other _ _ _ _ _ Hoo); [exact Hs1|eapply slot_at_nonneg; exact Hsl|assumption].
        - unfold slot_at in *. rewrite Hs. exact Hs1. }
      destruct (S1 s e He) as (a0 & s0 & R1 & R2 & R3 & R4 & R5 & R6 & R7). exists a0, s0.
      rewrite E3, E4, E1, E2. repeat (split; [assumption|]). rewrite E5, filled_app, R7.
      destruct (Bool.eqb_spec s (negb (o_side o))) as [Es|Es]; [lia|].
      rewrite (filled_zero _ new); [lia|]. intros f Hf Ef.
      destruct (call_fill_prices HC f) as (_ & Hts & (e0 & He0 & _ & _ & Hid & _) & _); [apply in_fills, Hf|].
      apply Es. eapply (seqn_side _ _ (l_key (snd e)) (mk_seq (y_mk y))); [apply Hrng, He| |lia].
      rewrite <- Ef, Hid. apply Hrng, He0.
  - intros ev Hev. specialize (Hall ev Hev). lia.
  - intros f e' Hf He' Ek. destruct (call_after HC _ e' He') as [(Es & Hsq & Hp)|(e & He & E1 & E2 & E3 & E4 & E5)].
    + exfalso. specialize (Hall _ Hf). cbn [ev_side ev_id] in Hall. rewrite seqno_seqn, Ek in Hsq. lia.
    + rewrite E3, E4. apply in_app_or in Hf as [Hf|Hf].
      * apply (S3 f e Hf He). congruence.
      * destruct (call_fill_prices HC f) as (_ & Hts & (e0 & He0 & _ & Hm1 & Hm2 & Hm3 & Hm4 & Hm5 & Hm6) & _); [apply in_fills, Hf|].
        assert (e0 = e) as -> by (rewrite Hts in He; apply (resting_inj _ _ _ _ _ _ Hb He0 He); congruence).
        split; [|auto]. destruct (f_maker_out f); [|reflexivity]. exfalso.
        rewrite Hts, eqb_reflx in E5.
        assert (Hge : f_qty f <= filled_qty (l_key (snd e)) new).
        { apply filled_ge; [|exact Hf|congruence]. intros ev Hev. apply (iv_qty _ _ _ _ _ HI'). apply in_or_app; right; exact Hev. }
        destruct (call_book_ok HC (negb (f_taker_side f))) as (_ & _ & H2 & _). destruct (H2 e' He') as [Hpos _].
        assert (f_qty f = l_quantity (snd e)) by (apply Hm6; reflexivity). lia.
  - intros u e' Hu He' Ek. apply in_app_or in Hu as [Hu|Hu]; [|exact (call_out_gone HC u e' Hu He' Ek)].
    destruct (call_after HC _ e' He') as [(Es & Hsq & Hp)|(e & He & E1 & E2 & _)].
    + specialize (S2 _ Hu). cbn [ev_side ev_id] in S2. rewrite seqno_seqn, Ek in Hsq. lia.
    + apply (S4 u e Hu He). congruence.
Qed.

Lemma sinv_cancelled cap seq mk q A Q pk bk a i bk' a' :
  book_ok cap seq bk -> mk_index mk <> FREE ->
  sinv (mkSys bk mk q (aset A pk a)) Q -> cancelled bk a (mk_index mk) pk i bk' a' ->
  sinv (mkSys bk' mk q (aset A pk a')) Q.
Proof.
  intros Hb Hfree [S1 S2 S3 S4] (s & p & p' & k & Hs & Hm & _ & _ & Hoo & Hother & _ & Hc). cbn [y_bk y_mk y_accs] in *.
  assert (Hsub : forall sd e, In e (resting sd bk') -> In e (resting sd bk)).
  { intros sd e He. destruct (Bool.bool_dec sd (s_side s)) as [->|Hne].
    - destruct Hc as [(l & _ & _ & _ & _ & HP)|(_ & _ & _ & E)]; [|rewrite <- E; exact He].
      eapply Permutation_in; [symmetry; exact HP|right; exact He].
    - apply neq_negb in Hne. subst sd. rewrite <- Hother. exact He. }
  assert (Hgone : forall e, In e (resting (s_side s) bk') -> fst e = s_comp s -> l_key (snd e) <> s_id s).
  { intros e He Hcmp Ek. destruct Hc as [(l & El & _ & _ & _ & HP)|(_ & _ & Hno & E)].
    - destruct (Hb (s_side s)) as (_ & _ & _ & HN). eapply Permutation_NoDup in HN; [|apply Permutation_map; exact HP].
      cbn [map snd] in HN. inversion HN as [|? ? Hn _]; subst. apply Hn. rewrite <- El in Ek.
      rewrite <- (seqno_key _ _ _ Ek). apply (in_map (fun e : entry => seqno (s_side s) (snd e))), He.
    - rewrite E in He. destruct e as [c l]. cbn [fst snd] in *. subst c. exact (Hno l He Ek). }
  constructor; cbn [y_bk y_mk y_accs]; eauto.
  intros sd e He. destruct (S1 sd e (Hsub _ _ He)) as (a0 & s0 & R1 & R2 & R3 & R4 & R5 & R6 & R7).
  rewrite aget_aset in R1. destruct (Z.eqb_spec pk (l_owner (snd e))) as [Epk|Epk].
  - injection R1 as <-. exists a', s0. rewrite aget_aset, Epk, Z.eqb_refl. split; [reflexivity|].
    assert (i <> l_owner_slot (snd e)).
    { intros Ei. rewrite <- Ei, Hs in R2. injection R2 as <-. subst sd. eapply Hgone; [exact He|auto|auto]. }
    rewrite (slot_upd_other _ _ _ _ _ Hoo); [auto 10|eapply slot_at_nonneg; exact Hs|assumption].
  - exists a0, s0. rewrite aget_aset. apply Z.eqb_neq in Epk. rewrite Epk. auto 10.
Qed.

(** the slot effect of events *)
Lemma maker_slots a mk f a' mk' : execute_maker a mk f = Some (a', mk') -> exists s, slot_at a (f_maker_slot f) = Some s /\
  a_oo a' = if slot_active s (mk_index mk) && ((f_maker_id f =? 0) || (s_id s =? f_maker_id f))
            then upd (a_oo a) (Z.to_nat (f_maker_slot f))
                   (if f_maker_out f then slot0 else mkSlot (s_market s) (s_side s) (s_comp s) (s_id s) (s_client s)
                             (Z.max (s_qty s - Z.abs (f_qty f)) 0))
            else a_oo a.
Proof.
  unfold execute_maker, base_quote_change. destruct (f_taker_side f); cbn [negb];
    destruct (a_pos a) as [p|]; try discriminate; cbn [record_trade];
    rewrite ?slot_at_set_pos; destruct (slot_at _ _) as [s|] eqn:Es; try discriminate; exists s; (split; [reflexivity|]);
    (destruct (slot_active s (mk_index mk) && ((f_maker_id f =? 0) || (s_id s =? f_maker_id f)));
    match goal with E : Some _ = Some _ |- _ => injection E as <- _ end; cbn [a_oo set_slot set_pos]; rewrite ?Z.abs_opp; reflexivity).
Qed.
Lemma out_slots a mkt u a' : execute_out a mkt u = Some a' -> exists s, slot_at a (u_slot u) = Some s /\
  a_oo a' = if slot_active s mkt && ((u_id u =? 0) || (s_id s =? u_id u))
            then upd (a_oo a) (Z.to_nat (u_slot u)) slot0 else a_oo a.
Proof.
  unfold execute_out. destruct (a_pos a) as [p|]; [|discriminate]. rewrite slot_at_set_pos.
  destruct (slot_at a (u_slot u)) as [s|]; [|discriminate]. intros E. exists s. split; [reflexivity|].
  destruct (_ && _); injection E as <-; reflexivity.
Qed.

Lemma sinv_consume cap capq y e Q n y' : (0 < capq)%nat -> inv cap capq y (e :: Q) n -> sinv y (e :: Q) ->
  consume y = Some y' -> mk_seq (y_mk y) < 2 ^ 63 -> sinv y' Q.
Proof.
  intros Hcap HI [S1 S2 S3 S4] Hc Hbound. pose proof (iv_book _ _ _ _ _ HI) as Hb.
  assert (Hrng : forall s e, In e (resting s (y_bk y)) -> 1 <= seqn s (l_key (snd e)) <= mk_seq (y_mk y)).
  { intros s e0 He. destruct (Hb s) as (_ & _ & H2 & _). apply (H2 e0 He). }
  assert (Hev0 : ev_id e <> 0) by (eapply seqn_nonzero; [apply S2; left; reflexivity|exact Hbound]).
  destruct (consume_inv _ _ Hc) as [(f & q' & Hp & Eb & Eq & Hf)|(u & q' & a & a' & Hp & Ha & Hx & ->)];
    destruct (pop_view _ _ _ _ _ _ Hcap (iv_q _ _ _ _ _ HI) Hp) as (Q' & E & _); injection E as -> <-.
  - destruct Hf as (am & am' & mk1 & at0 & at' & Hm & Em & Ht & Et & EA).
    assert (Hq : 0 < f_qty f) by (apply (iv_qty _ _ _ _ _ HI (EFill f)); left; reflexivity).
    destruct (maker_core _ _ _ _ _ Hq Em) as (p & p' & _ & _ & _ & _ & _ & _ & _ & M6).
    destruct (taker_core _ _ _ _ _ Et) as (t & t' & _ & _ & _ & _ & _ & _ & _ & T6 & Too).
    destruct (maker_slots _ _ _ _ _ Em) as (s & Hs & Moo).
    assert (B1 : mk_index (y_mk y') = mk_index (y_mk y) /\ mk_seq (y_mk y') = mk_seq (y_mk y)) by (rewrite T6, M6; auto).
    destruct B1 as [B1 B2]. cbn [ev_id] in Hev0. apply Z.eqb_neq in Hev0. rewrite Hev0 in Moo. cbn [orb] in Moo.
    constructor; rewrite ?Eb, ?B1, ?B2.
    + intros sd e He. rewrite EA. apply (recorded_keeps _ (aset (y_accs y) (f_maker f) am')).
      { eapply keeps_aset_oo; eauto. }
      destruct (S1 sd e He) as (a0 & s0 & R1 & R2 & R3 & R4 & R5 & R6 & R7). rewrite filled_cons in R7.
      assert (Hside : l_key (snd e) = f_maker_id f -> sd = negb (f_taker_side f)).
      { intros Ek. eapply seqn_side; [apply Hrng, He| |exact Hbound]. rewrite Ek. apply (S2 (EFill f)). left; reflexivity. }
      destruct (Z.eqb_spec (f_maker_id f) (l_key (snd e))) as [Ek|Ek].
      * symmetry in Ek. specialize (Hside Ek). rewrite Hside in He, R4 |- *. clear sd Hside.
        destruct (S3 f e (or_introl eq_refl) He Ek) as (Fo & Fm & Fs). rewrite Fs in Hs. rewrite Fm in Hm. rewrite R1 in Hm.
        injection Hm as <-. rewrite R2 in Hs. injection Hs as <-.
        unfold slot_active in Moo. rewrite R3, R6, Ek, !Z.eqb_refl, Fo in Moo. cbn [andb] in Moo.
        exists am'. eexists. rewrite Fm, aget_aset, Z.eqb_refl. split; [reflexivity|].
        rewrite Fs in Moo. rewrite (slot_upd_same _ _ _ _ _ Moo R2). split; [reflexivity|].
        cbn [s_market s_side s_comp s_id s_qty]. rewrite <- Ek in *.
        repeat (split; [assumption||reflexivity|]). 
        pose proof (filled_nonneg (l_key (snd e)) Q (fun ev Hev => iv_qty _ _ _ _ _ HI ev (or_intror Hev))).
        destruct (Hb (negb (f_taker_side f))) as (_ & _ & H2 & _). destruct (H2 e He). lia.
      * exists (if f_maker f =? l_owner (snd e) then am' else a0), s0. rewrite aget_aset.
        split; [destruct (f_maker f =? l_owner (snd e)); [reflexivity|exact R1]|]. split; [|repeat (split; [assumption|]); lia].
        destruct (Z.eqb_spec (f_maker f) (l_owner (snd e))) as [Eo|]; [|exact R2].
        rewrite <- Eo, Hm in R1. injection R1 as <-.
        destruct (Z.eq_dec (f_maker_slot f) (l_owner_slot (snd e))) as [Ei|Ei].
        -- rewrite Ei, R2 in Hs. injection Hs as <-.
           assert (Z.eqb (s_id s0) (f_maker_id f) = false) as Ex by (apply Z.eqb_neq; congruence).
           rewrite Ex, andb_false_r in Moo. unfold slot_at in *. rewrite Moo. exact R2.
        -- destruct (slot_active s _ && _); [|unfold slot_at in *; rewrite Moo; exact R2].
           rewrite (slot_upd_other _ _ _ _ _ Moo); [exact R2|eapply slot_at_nonneg; exact Hs|exact Ei].
    + intros ev Hev. apply S2. right; exact Hev.
    + intros f' e Hf'. apply S3. right; exact Hf'.
    + intros u e Hu. apply S4. right; exact Hu.
  - destruct (out_slots _ _ _ _ Hx) as (s & Hs & Moo). cbn [ev_id] in Hev0. apply Z.eqb_neq in Hev0. rewrite Hev0 in Moo. cbn [orb] in Moo.
    constructor; cbn [y_bk y_mk y_accs].
    + intros sd e He. destruct (S1 sd e He) as (a0 & s0 & R1 & R2 & R3 & R4 & R5 & R6 & R7). rewrite filled_cons in R7.
      assert (Hne : l_key (snd e) <> u_id u).
      { intros Ek. assert (sd = u_side u) as ->; [|exact (S4 u e (or_introl eq_refl) He Ek)].
        eapply seqn_side; [apply Hrng, He| |exact Hbound]. rewrite Ek. apply (S2 (EOut u)). left; reflexivity. }
      exists (if u_owner u =? l_owner (snd e) then a' else a0), s0. rewrite aget_aset.
      split; [destruct (u_owner u =? l_owner (snd e)); [reflexivity|exact R1]|]. split; [|repeat (split; [assumption|]); lia].
      destruct (Z.eqb_spec (u_owner u) (l_owner (snd e))) as [Eo|]; [|exact R2].
      rewrite <- Eo, Ha in R1. injection R1 as <-.
      destruct (Z.eq_dec (u_slot u) (l_owner_slot (snd e))) as [Ei|Ei].
      * rewrite Ei, R2 in Hs. injection Hs as <-.
        assert (Z.eqb (s_id s0) (u_id u) = false) as Ex by (apply Z.eqb_neq; congruence).
        rewrite Ex, andb_false_r in Moo. unfold slot_at in *. rewrite Moo. exact R2.
      * destruct (slot_active s _ && _); [|unfold slot_at in *; rewrite Moo; exact R2].
        rewrite (slot_upd_other _ _ _ _ _ Moo); [exact R2|eapply slot_at_nonneg; exact Hs|exact Ei].
    + intros ev Hev. apply S2. right; exact Hev.
    + intros f' e Hf'. apply S3. right; exact Hf'.
    + intros u' e Hu. apply S4. right; exact Hu.
Qed.

(** an address whose position is empty has no resting orders *)
Lemma owned_pos pk L : (forall e, In e L -> 0 < l_quantity (snd e)) -> 0 <= owned pk L.
Proof.
  induction L as [|e L IH]; intros HP; [reflexivity|]. rewrite owned_cons.
  specialize (IH (fun e H => HP e (or_intror H))). specialize (HP e (or_introl eq_refl)). destruct (_ =? _); lia.
Qed.
Lemma owned_zero pk L : (forall e, In e L -> 0 < l_quantity (snd e)) -> owned pk L <= 0 ->
  forall e, In e L -> l_owner (snd e) <> pk.
Proof.
  induction L as [|e L IH]; intros HP Hz e' He'; [destruct He'|]. rewrite owned_cons in Hz.
  pose proof (owned_pos pk L (fun e H => HP e (or_intror H))). pose proof (HP e (or_introl eq_refl)).
  destruct He' as [<-|He'].
  - intros E. rewrite E, Z.eqb_refl in Hz. lia.
  - apply IH; auto; [intros; apply HP; right; assumption|]. destruct (_ =? _); lia.
Qed.
Lemma in_flight_pos sd pk Q : (forall e, In e Q -> ev_pos e) -> 0 <= in_flight sd pk Q.
Proof.
  induction Q as [|e Q IH]; intros HP; [reflexivity|]. rewrite in_flight_cons.
  specialize (IH (fun e H => HP e (or_intror H))). specialize (HP e (or_introl eq_refl)).
  unfold in_flight at 1, sumZ. cbn [map fold_right]. destruct e as [f|u]; cbn [ev_pos] in HP; destruct (_ && _); lia.
Qed.
Lemma no_position_no_orders cap capq y Q n pk : inv cap capq y Q n -> pos_of y pk = pos0 ->
  forall sd e, In e (resting sd (y_bk y)) -> l_owner (snd e) <> pk.
Proof.
  intros HI Hp sd e He. pose proof (iv_lots _ _ _ _ _ HI pk sd) as HL. rewrite Hp in HL.
  pose proof (in_flight_pos sd pk Q (iv_qty _ _ _ _ _ HI)).
  destruct (iv_book _ _ _ _ _ HI sd) as (_ & _ & H2 & _).
  eapply owned_zero; [|shelve|exact He]. intros e' He'. apply (H2 e' He'). Unshelve.
  assert (side_lots sd pos0 = 0) by (destruct sd; reflexivity). lia.
Qed.

Lemma blocked_lt L : forall i s, nth_error L i = Some s -> s_market s <> FREE -> (i < blocked L)%nat.
Proof.
  induction L as [|x L IH]; intros i s Hi Hf; [destruct i; discriminate|]. cbn [blocked]. destruct i as [|i].
  - cbn in Hi. injection Hi as ->. apply Z.eqb_neq in Hf. rewrite Hf. destruct (blocked L); lia.
  - cbn [nth_error] in Hi. specialize (IH i s Hi Hf). destruct (blocked L); lia.
Qed.
Lemma resize_keeps L k L' : resize_slots L k = Some L' -> forall i s, nth_error L i = Some s -> s_market s <> FREE -> nth_error L' i = Some s.
Proof.
  unfold resize_slots. destruct (Nat.leb _ _); [|discriminate]. intros E; injection E as <-. intros i s Hi Hf.
  pose proof (blocked_lt _ _ _ Hi Hf) as Hlt. rewrite nth_error_app1.
  - rewrite <- Hi. clear -Hlt. revert i Hlt. generalize (blocked L). induction L as [|x L IH]; intros m i Hlt; [destruct m, i; reflexivity|].
    destruct m as [|m]; [lia|]. destruct i as [|i]; [reflexivity|]. cbn [firstn nth_error]. apply IH. lia.
  - rewrite firstn_length. apply Nat.min_glb_lt; [exact Hlt|]. apply nth_error_Some. congruence.
Qed.

Lemma step_seq y x y' : step y x = Some y' -> mk_seq (y_mk y) <= mk_seq (y_mk y') /\ mk_index (y_mk y') = mk_index (y_mk y).
Proof.
  unfold step. destruct x as [pk k|pk|pk k|pk i s|pk o oracle now limit|pk id|pk cid|pk only limit| |pk1 pk2 base q1 q2|pk qt os|pk|pk|lf sf mf tf pe fe aw lw|pk].
  1-4: destruct (aget (y_accs y) pk) as [a|]; try discriminate.
  - intros X; injection X as <-; cbn; split; [lia|reflexivity].
  - destruct (a_pos a); [discriminate|]. intros X; injection X as <-; cbn; split; [lia|reflexivity].
  - destruct (resize_slots _ _); [|discriminate]. intros X; injection X as <-; cbn; split; [lia|reflexivity].
  - destruct (slot_at _ _); [|discriminate]. destruct (_ || _); [discriminate|]. intros X; injection X as <-; cbn; split; [lia|reflexivity].
  - destruct (aget (y_accs y) pk) as [a|]; [|discriminate]. destruct (new_order _ _ _ _ _ _ _ _ _) as [r|] eqn:E; [|discriminate].
    intros X; injection X as <-. cbn [y_mk]. unfold new_order in E.
    destruct (native_price_to_lot _ _); [|discriminate]. destruct (bs_items _ _ _ _); [|discriminate].
    destruct (order_price _ _ _) as [[? ?]|]; [|discriminate]. unfold gen_order_id in E. destruct (_ <=? u64_max); [|discriminate].
    destruct (a_pos (ensure_position a)); [|discriminate].
    remember (if needs_penalty o then apply_penalty (with_seq (y_mk y) (mk_seq (y_mk y) + 1)) p
         else (with_seq (y_mk y) (mk_seq (y_mk y) + 1), p)) as mp eqn:Emp.
    assert (M : mk_seq (fst mp) = mk_seq (y_mk y) + 1 /\ mk_index (fst mp) = mk_index (y_mk y)).
    { rewrite Emp. destruct (needs_penalty o); auto. }
    destruct mp as [mk p1]. cbn [fst] in M.
    destruct (match_loop _ _ _) as [m|]; [|discriminate]. cbv zeta in E.
    destruct ((_ <? 0) || (_ <? 0)); [discriminate|].
    match type of E with (match ?t with _ => _ end = _) => remember t as ap eqn:Eap end.
    assert (M2 : forall mk2 p2, ap = Some (mk2, p2) -> mk_seq mk2 = mk_seq mk /\ mk_index mk2 = mk_index mk).
    { intros mk2 p2 E2. rewrite E2 in Eap. destruct ((0 <? _) || (0 <? _)) in Eap.
      - unfold apply_fees in Eap. cbv zeta in Eap.
        repeat match type of Eap with _ = (if ?b then _ else _) => destruct b; [discriminate|] end. injection Eap as -> _. split; reflexivity.
      - injection Eap as -> _. split; reflexivity. }
    destruct ap as [[mk2 p2]|]; [|discriminate]. destruct (M2 mk2 p2 eq_refl) as [M3 M4]. clear M2 Eap Emp.
    repeat match type of E with
      | match ?t with _ => _ end = _ => destruct t; try discriminate
      end; injection E as <-; cbn [r_market]; split; (lia || congruence).
  - destruct (aget (y_accs y) pk) as [a|]; [|discriminate]. destruct (find_order_id _ _ _); [|discriminate]. unfold cancel_slot.
    destruct (cancel_by_slot _ _ _ _ _) as [[[? ?]|]|]; try discriminate. intros X; injection X as <-; cbn; split; [lia|reflexivity].
  - destruct (aget (y_accs y) pk) as [a|]; [|discriminate]. destruct (find_client_order _ _ _); [|discriminate]. unfold cancel_slot.
    destruct (cancel_by_slot _ _ _ _ _) as [[[? ?]|]|]; try discriminate. intros X; injection X as <-; cbn; split; [lia|reflexivity].
  - destruct (aget (y_accs y) pk) as [a|]; [|discriminate]. destruct (cancel_all _ _ _ _ _ _ _ _) as [[? ?]|]; [|discriminate].
    intros X; injection X as <-; cbn; split; [lia|reflexivity].
  - intros Hc. destruct (consume_inv _ _ Hc) as [(f & q' & _ & _ & _ & Hf)|(u & q' & a & a' & _ & _ & _ & ->)]; [|cbn; split; [lia|reflexivity]].
    destruct Hf as (am & am' & mk1 & at0 & at' & _ & Em & _ & Et & _).
    destruct (taker_core _ _ _ _ _ Et) as (t & t' & _ & _ & _ & _ & _ & _ & _ & T6 & _). rewrite T6.
    unfold execute_maker in Em. destruct (base_quote_change _ _) as [b ql]. destruct (a_pos am); [|discriminate].
    cbn [record_trade] in Em. destruct (slot_at _ _) as [s|]; [|discriminate].
    destruct (_ && _) in Em; injection Em as _ <-; cbn; split; (lia || reflexivity).
  - destruct (pk1 =? pk2); [discriminate|]. destruct (aget _ _) as [a|]; [|discriminate]. destruct (aget _ _) as [b|]; [|discriminate].
    destruct (a_pos a); [|discriminate]. destruct (a_pos b); [|discriminate]. cbn [record_trade]. intros X; injection X as <-; cbn; split; [lia|reflexivity].
  - destruct (aget (y_accs y) pk) as [a|]; [|discriminate]. destruct (a_pos a); [|discriminate]. intros X; injection X as <-; cbn; split; [lia|reflexivity].
  - destruct (aget (y_accs y) pk) as [a|]; [|discriminate]. destruct (a_pos a); [|discriminate]. intros X; injection X as <-; cbn; split; [lia|reflexivity].
  - destruct (aget (y_accs y) pk) as [a|]; [|discriminate]. destruct (a_pos a); [|discriminate]. cbv zeta.
    match goal with |- (if ?b then _ else _) = _ -> _ => destruct b; [|discriminate] end. intros X; injection X as <-; cbn; split; [lia|reflexivity].
  - intros X; injection X as <-; cbn; split; [lia|reflexivity].
  - destruct (aget (y_accs y) pk) as [a|]; [|discriminate]. intros X; injection X as <-; cbn; split; [lia|reflexivity].
Qed.

Lemma both_step cap capq y Q n x y' : (0 < capq)%nat -> inv cap capq y Q n -> sinv y Q -> op_wf x -> step y x = Some y' ->
  mk_seq (y_mk y') < 2 ^ 63 -> exists Q' n', inv cap capq y' Q' n' /\ sinv y' Q'.
Proof.
  intros Hcap HI HS Hwf Hst Hbd. pose proof (step_seq _ _ _ Hst) as [Hmono _]. pose proof (iv_idx _ _ _ _ _ HI) as Hfree.
  assert (Heasy : forall A mk', y' = mkSys (y_bk y) mk' (y_q y) A -> keeps (mk_index (y_mk y)) (y_accs y) A ->
     mk_index mk' = mk_index (y_mk y) -> mk_seq mk' = mk_seq (y_mk y) -> exists Q' n', inv cap capq y' Q' n' /\ sinv y' Q').
  { intros A mk' Ey HK E1 E2. destruct (inv_step _ _ _ _ _ _ _ Hcap HI Hwf Hst) as (Q' & n' & HI').
    assert (Q = Q') as <-.
    { pose proof (iv_q _ _ _ _ _ HI') as HQ'. rewrite Ey in HQ'. cbn [y_q] in HQ'. apply (qview_fun _ _ _ _ _ _ (iv_q _ _ _ _ _ HI) HQ'). }
    exists Q, n'. split; [exact HI'|]. rewrite Ey. apply sinv_keeps; assumption. }
  pose proof Hst as Hst0. unfold step in Hst.
  destruct x as [pk k|pk|pk k|pk i s|pk o oracle now limit|pk id|pk cid|pk only limit| |pk1 pk2 base q1 q2|pk qt os|pk|pk|lf sf mf tf pe fe aw lw|pk].
  - destruct (aget (y_accs y) pk) eqn:E; [discriminate|]. injection Hst as <-. eapply Heasy; try reflexivity.
    apply keeps_aset. intros a i s Ha. congruence.
  - destruct (aget (y_accs y) pk) as [a|] eqn:E; [|discriminate]. destruct (a_pos a) eqn:Ep; [discriminate|].
    injection Hst as <-. destruct (inv_step _ _ _ _ _ _ _ Hcap HI Hwf Hst0) as (Q' & n' & HI').
    assert (Q = Q') as <- by (apply (qview_fun _ _ _ _ _ _ (iv_q _ _ _ _ _ HI) (iv_q _ _ _ _ _ HI'))).
    exists Q, n'. split; [exact HI'|]. destruct HS as [S1 S2 S3 S4]. constructor; cbn [y_bk y_mk y_accs]; auto.
    intros sd e He. assert (Hpn : pos_of y pk = pos0) by (rewrite (pos_of_get _ _ _ E); unfold posn; rewrite Ep; reflexivity).
    pose proof (no_position_no_orders _ _ _ _ _ _ HI Hpn sd e He) as Hne.
    destruct (S1 sd e He) as (a0 & s0 & R1 & R). exists a0, s0. rewrite aget_adel.
    destruct (Z.eqb_spec pk (l_owner (snd e))); [congruence|]. auto.
  - destruct (aget (y_accs y) pk) as [a|] eqn:E; [|discriminate]. destruct (resize_slots _ _) as [L|] eqn:ER; [|discriminate].
    injection Hst as <-. eapply Heasy; try reflexivity. apply keeps_aset. intros a0 i s Ha0 Hs Hm. rewrite E in Ha0. injection Ha0 as <-.
    unfold slot_at in *. cbn [a_oo]. destruct (i <? 0); [discriminate|]. eapply resize_keeps; eauto. congruence.
  - destruct (aget (y_accs y) pk) as [a|] eqn:E; [|discriminate]. destruct (slot_at a i) as [s0|] eqn:Es0; [|discriminate].
    destruct ((s_market s0 =? mk_index (y_mk y)) || (s_market s =? mk_index (y_mk y))) eqn:Eo; [discriminate|].
    injection Hst as <-. eapply Heasy; try reflexivity. apply keeps_aset. intros a0 j s1 Ha0 Hs Hm. rewrite E in Ha0. injection Ha0 as <-.
    apply orb_false_iff in Eo as [Eo _]. apply Z.eqb_neq in Eo.
    rewrite (slot_upd_other a (set_slot a i s) i j s); [exact Hs|reflexivity|eapply slot_at_nonneg; exact Es0|].
    intros ->. rewrite Es0 in Hs. congruence.
  - destruct (aget (y_accs y) pk) as [a|] eqn:E; [|discriminate]. destruct (new_order _ _ _ _ _ _ _ _ _) as [r|] eqn:EN; [|discriminate].
    injection Hst as <-. destruct Hwf as [W1 W2].
    destruct (inv_place _ _ _ _ _ _ _ _ _ _ _ _ HI W1 W2 E EN) as (ol & new & n' & HC & HI'). exists (Q ++ new), n'.
    split; [exact HI'|]. eapply sinv_place; eauto.
  - destruct (aget (y_accs y) pk) as [a|] eqn:E; [|discriminate]. destruct (find_order_id _ _ _) as [i|]; [|discriminate].
    unfold cancel_slot in Hst. destruct (cancel_by_slot _ _ _ _ _) as [[[bk' a']|]|] eqn:Ec; try discriminate. injection Hst as <-.
    destruct (cancel_by_slot_spec _ _ _ _ _ _ _ _ _ (iv_book _ _ _ _ _ HI) Ec) as [Hc Hb]. exists Q, n. split.
    + eapply inv_cancelled; eauto. apply (pos_of_get _ _ _ E).
    + eapply sinv_cancelled; [apply (iv_book _ _ _ _ _ HI)|exact Hfree| |exact Hc]. rewrite (aset_same _ _ _ E). destruct y; exact HS.
  - destruct (aget (y_accs y) pk) as [a|] eqn:E; [|discriminate]. destruct (find_client_order _ _ _) as [i|]; [|discriminate].
    unfold cancel_slot in Hst. destruct (cancel_by_slot _ _ _ _ _) as [[[bk' a']|]|] eqn:Ec; try discriminate. injection Hst as <-.
    destruct (cancel_by_slot_spec _ _ _ _ _ _ _ _ _ (iv_book _ _ _ _ _ HI) Ec) as [Hc Hb]. exists Q, n. split.
    + eapply inv_cancelled; eauto. apply (pos_of_get _ _ _ E).
    + eapply sinv_cancelled; [apply (iv_book _ _ _ _ _ HI)|exact Hfree| |exact Hc]. rewrite (aset_same _ _ _ E). destruct y; exact HS.
  - destruct (aget (y_accs y) pk) as [a|] eqn:E; [|discriminate]. destruct (cancel_all _ _ _ _ _ _ _ _) as [[bk' a']|] eqn:Ec; [|discriminate].
    injection Hst as <-. exists Q, n. split; [eapply inv_cancel_all; eauto|].
    refine (proj1 (cancel_all_ind cap (mk_seq (y_mk y)) _ pk only
      (fun bk a => sinv (mkSys bk (y_mk y) (y_q y) (aset (y_accs y) pk a)) Q) _ _ _ _ _ _ _ _ (iv_book _ _ _ _ _ HI) _ Ec)).
    + clear -Hfree. intros bk a i bk1 a1 HS Hb Hcd _. eapply sinv_cancelled; eauto.
    + rewrite (aset_same _ _ _ E). destruct y; exact HS.
  - destruct (inv_consume _ _ _ _ _ _ Hcap HI Hst) as (e & Q' & -> & HI'). exists Q', n. split; [exact HI'|].
    eapply sinv_consume; eauto. lia.
  - destruct (Z.eqb_spec pk1 pk2) as [|Hne]; [discriminate|].
    destruct (aget (y_accs y) pk1) as [a|] eqn:Ea; [|discriminate]. destruct (aget (y_accs y) pk2) as [b|] eqn:Eb; [|discriminate].
    destruct (a_pos a) as [p|] eqn:Ep; [|discriminate]. destruct (a_pos b) as [p'|] eqn:Ep'; [|discriminate].
    cbn [record_trade] in Hst. injection Hst as Hst. symmetry in Hst. eapply Heasy; [exact Hst| |reflexivity|reflexivity].
    eapply keeps_trans; [|apply (keeps_aset_oo _ _ _ b); [|reflexivity]].
    + apply (keeps_aset_oo _ _ _ a); [exact Ea|reflexivity].
    + rewrite aget_aset. apply Z.eqb_neq in Hne. rewrite Hne. exact Eb.
  - destruct (aget (y_accs y) pk) as [a|] eqn:E; [|discriminate]. destruct (a_pos a) as [p|] eqn:Ep; [|discriminate].
    injection Hst as <-. eapply Heasy; try reflexivity. eapply keeps_aset_oo; [exact E|reflexivity].
  - destruct (aget (y_accs y) pk) as [a|] eqn:E; [|discriminate]. destruct (a_pos a) as [p|] eqn:Ep; [|discriminate].
    injection Hst as <-. eapply Heasy; try reflexivity. eapply keeps_aset_oo; [exact E|reflexivity].
  - destruct (aget (y_accs y) pk) as [a|] eqn:E; [|discriminate]. destruct (a_pos a) as [p|] eqn:Ep; [|discriminate].
    cbv zeta in Hst. match type of Hst with (if ?b then _ else _) = _ => destruct b; [|discriminate] end.
    injection Hst as <-. eapply Heasy; try reflexivity. eapply keeps_aset_oo; [exact E|reflexivity].
  - injection Hst as Hst. symmetry in Hst. eapply Heasy; [exact Hst| |reflexivity|reflexivity]. apply keeps_refl.
  - destruct (aget (y_accs y) pk) as [a|] eqn:E; [|discriminate].
    injection Hst as <-. eapply Heasy; try reflexivity. eapply keeps_aset_oo; [exact E|apply ensure_oo].
Qed.

Lemma run_seq : forall L y y', run_ops y L = Some y' -> mk_seq (y_mk y) <= mk_seq (y_mk y').
Proof.
  induction L as [|x L IH]; intros y y' Hr; cbn [run_ops] in Hr; [injection Hr as <-; lia|].
  destruct (step y x) as [y1|] eqn:E; [|discriminate]. apply step_seq in E as [E _]. specialize (IH _ _ Hr). lia.
Qed.
Lemma both_run cap capq : (0 < capq)%nat -> forall L y Q n y', inv cap capq y Q n -> sinv y Q -> Forall op_wf L -> run_ops y L = Some y' ->
  mk_seq (y_mk y') < 2 ^ 63 -> exists Q' n', inv cap capq y' Q' n' /\ sinv y' Q'.
Proof.
  intros Hcap. induction L as [|x L IH]; intros y Q n y' HI HS HF Hr Hbd; cbn [run_ops] in Hr.
  - injection Hr as <-. eauto.
  - inversion HF; subst. destruct (step y x) as [y1|] eqn:E; [|discriminate]. pose proof (run_seq _ _ _ Hr).
    destruct (both_step _ _ _ _ _ _ _ Hcap HI HS H1 E ltac:(lia)) as (Q1 & n1 & HI1 & HS1). eapply IH; eauto.
Qed.
Lemma both_reached cap capq y : reached cap capq y -> mk_seq (y_mk y) < 2 ^ 63 -> exists Q n, inv cap capq y Q n /\ sinv y Q.
Proof.
  intros (buf & idx & bls & qls & mf & tf & pe & aw & lw & L & Hb & Hc & Hi & HF & Hr) Hbd.
  eapply both_run; [exact Hc|apply inv_fresh; eassumption| |exact HF|exact Hr|exact Hbd].
  constructor; cbn [fresh y_bk y_mk y_accs];
  [intros sd e He; rewrite empty_resting in He; destruct He|intros ev []|intros f e []|intros u e []].
Qed.
