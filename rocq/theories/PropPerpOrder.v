(** C88: event processing and cancels against health; C89: perp_place_order as a whole; C90:
    perp_liq_force_cancel_orders as a whole. *)
From Coq Require Import List ZArith Lia Bool Arith.
From Verif Require Import OrderTree OrderTreeSpec Keys BookSide EventQueue PerpTypes Book BookLoop BookSpec BookPlace BookCancel BookResults2 PerpSystem PerpSpec PerpInv PerpMoney Interest InterestFacts Bank Health HealthSpec HealthFacts HealthMore HealthSkip LiqState
  TokenLiq TokenLiqFacts SerumCache PerpLiqBase PerpLiqNegSpec TokenMoveFacts SettleIxFacts PropSettleIx PropBook PropPerp PropHealth PropMoney PropTokenLiq PropTokenMove PerpOrderIx PerpOrderFacts Fixed.
Import ListNotations.
Open Scope Z_scope.

(** ** C88 *)
(** the rest of an account: tokens, spot open orders without reserved funds, perps of other markets *)
Record rest := mkRest { rs_tokens : list tinfo; rs_serum : list sinfo; rs_before : list pinfo; rs_after : list pinfo }.
Definition rest_ok (x : rest) : Prop :=
  no_reserved (mkHC (rs_tokens x) (rs_serum x) []) /\ NoDup (map ti_index (rs_tokens x)) /\ Forall token_ok (rs_tokens x).
(** the health of the account at address [pk], with its position in the market as it is in [y] *)
Definition user_health (v : pview) (y : sys) (x : rest) (pk : Z) (ty : htype) : option fx :=
  health (mkHC (rs_tokens x) (rs_serum x) (rs_before x ++ viewed v (y_mk y) (pos_of y pk) :: rs_after x)) ty.
(** health takes a haircut on the market: assets count at most in full, liabilities at least *)
Definition haircut (v : pview) (mk : market) : Prop :=
  0 <= bp_init_aw (pv_par v) <= fone /\ 0 <= mk_maint_asset_w mk <= fone /\ fone <= bp_init_lw (pv_par v) /\ fone <= mk_maint_liab_w mk /\
  0 <= mk_bls mk /\ prices_ok (pv_prices v) /\ 0 <= bp_maint_ov (pv_par v) <= fone /\ 0 <= bp_init_ov (pv_par v) <= fone.
(** whose order the event is about *)
Definition resting_party (ev : event) : Z := match ev with EFill f => f_maker f | EOut u => u_owner u end.

Lemma overall_ok v mk p ty : haircut v mk -> 0 <= overall_weight (viewed v mk p) ty <= fone.
Proof. intros (_ & _ & _ & _ & _ & _ & A & B). destruct ty; assumption. Qed.
Lemma haircut_viewed v mk p : haircut v mk -> 0 <= p_bids p -> 0 <= p_asks p -> perp_haircut (viewed v mk p).
Proof. intros (A & B & C & D & E & F & _) X Y. unfold perp_haircut, viewed, new_pinfo. cbn [pi_init_aw pi_maint_aw pi_init_lw pi_maint_lw pi_lot pi_bids pi_asks pi_prices]. auto 10. Qed.
Lemma evolved_overall pi pi' kb ka cb ca dq ty : evolved pi pi' kb ka cb ca dq -> overall_weight pi' ty = overall_weight pi ty.
Proof. intros [_ O _ _ _ _]. apply pair_equal_spec in O as [O O2]. apply pair_equal_spec in O as [_ O1]. destruct ty; cbn [overall_weight]; assumption. Qed.
Lemma q_pop_head q Q capq n ev q' : (0 < capq)%nat -> qview capq q Q n -> q_pop q = Some (inl (ev, q')) -> exists Q', Q = ev :: Q'.
Proof. intros C V P. destruct (pop_view _ _ _ _ _ _ C V P) as (Q' & E & _). eauto. Qed.

Theorem C88_others : forall cap capq y y' ev Q, reached cap capq y -> q_iter (y_q y) = Some (ev :: Q) -> consume y = Some y' ->
  forall pk, pk <> resting_party ev -> forall v x ty, user_health v y' x pk ty = user_health v y x pk ty.
Proof.
  intros cap capq y y' ev Q R HQ C pk NE v x ty. destruct (reached_inv _ _ _ R) as (Q0 & n & HI & HQ0 & HC). rewrite HQ in HQ0. apply some_inj in HQ0. subst Q0.
  destruct (consume_inv _ _ C) as [(f & q' & Hp & Eb & Eq & am & am' & mk1 & at0 & at' & Hm & Em & Ht & Et & EA)|(u & q' & a & a' & Hp & Ha & Hx & ->)].
  - destruct (q_pop_head _ _ _ _ _ _ HC (iv_q _ _ _ _ _ HI) Hp) as (Q1 & E). injection E as -> <-. cbn [resting_party] in NE.
    assert (F : 0 < f_qty f) by (apply (iv_qty _ _ _ _ _ HI (EFill f)); left; reflexivity).
    destruct (maker_viewed _ _ _ _ _ v F Em) as (p & p1 & z & _ & _ & -> & _). destruct (taker_viewed _ _ _ _ _ v ty Et) as (t & t' & z' & T1 & T2 & M & HT & _).
    unfold user_health. apply health_same; [reflexivity|]. unfold pos_of. rewrite EA, !pos_in_aset.
    assert (NM : (f_maker f =? pk) = false) by (apply Z.eqb_neq; congruence). rewrite NM.
    destruct (Z.eqb_spec (f_taker f) pk) as [<-|N].
    + unfold posn. rewrite T2, HT. rewrite viewed_oi. f_equal. f_equal. rewrite aget_aset, NM in Ht. unfold PerpSpec.pos_in. rewrite Ht. unfold posn. rewrite T1. reflexivity.
    + rewrite M, !viewed_oi. reflexivity.
  - destruct (q_pop_head _ _ _ _ _ _ HC (iv_q _ _ _ _ _ HI) Hp) as (Q1 & E). injection E as -> <-. cbn [resting_party] in NE.
    unfold user_health, pos_of. cbn [y_mk y_accs]. rewrite pos_in_aset. destruct (Z.eqb_spec (u_owner u) pk); [congruence|reflexivity].
Qed.
Print Assumptions C88_others.

(** what the maker of a fill loses against the price its health counted on: a bought lot counts at the higher, a sold one at the
    lower of oracle and stable price (in maintenance and liquidation-end health: at the oracle price); and the maker fee *)
Definition fill_value (mk : market) (f : fill) : fx := of_int (f_price f * f_qty f * mk_qls mk).
Definition counted (v : pview) (mk : market) (f : fill) (ty : htype) : fx :=
  f_qty f * mk_bls mk * (if f_taker_side f then asset_price (pv_prices v) ty else liab_price (pv_prices v) ty).
Definition fill_loss (v : pview) (mk : market) (f : fill) (ty : htype) : fx :=
  (if f_taker_side f then counted v mk f ty - fill_value mk f else fill_value mk f - counted v mk f ty)
  + fmul (Z.abs (fill_value mk f)) (f_maker_fee f).

Lemma maker_step cap capq y y' f Q v : reached cap capq y -> q_iter (y_q y) = Some (EFill f :: Q) -> consume y = Some y' -> haircut v (y_mk y) ->
  forall ty, let old := viewed v (y_mk y) (pos_of y (f_maker f)) in let new := viewed v (y_mk y') (pos_of y' (f_maker f)) in
  overall_weight new ty = overall_weight old ty /\ exists u, hupnl new ty = hupnl u ty /\ overall_weight u ty = overall_weight old ty /\ uhupnl old ty - fill_loss v (y_mk y) f ty <= uhupnl u ty.
Proof.
  intros R HQ C HC ty. cbv zeta. pose proof (reached_step _ _ _ OpConsume y' R I C) as R'. destruct (C13_lots_nonneg _ _ _ R (f_maker f)) as [L1 L2]. destruct (C13_lots_nonneg _ _ _ R' (f_maker f)) as [L3 L4].
  destruct (reached_inv _ _ _ R) as (Q0 & n & HI & HQ0 & HK). rewrite HQ in HQ0. apply some_inj in HQ0. subst Q0.
  destruct (consume_inv _ _ C) as [(f0 & q' & Hp & Eb & Eq & am & am' & mk1 & at0 & at' & Hm & Em & Ht & Et & EA)|(u & q' & a & a' & Hp & Ha & Hx & ->)];
    destruct (q_pop_head _ _ _ _ _ _ HK (iv_q _ _ _ _ _ HI) Hp) as (Q1 & E); [|discriminate E]. injection E as -> <-.
  assert (F : 0 < f_qty f0) by (apply (iv_qty _ _ _ _ _ HI (EFill f0)); left; reflexivity).
  destruct (maker_viewed _ _ _ _ _ v F Em) as (p & p1 & z & P0 & P1 & EM & EV). destruct (taker_viewed _ _ _ _ _ v ty Et) as (t & t' & z' & T1 & T2 & M & HT & BT & AT).
  assert (PO : pos_of y (f_maker f0) = p) by (unfold pos_of, PerpSpec.pos_in; rewrite Hm; unfold posn; rewrite P0; reflexivity).
  assert (PN : hupnl (viewed v (y_mk y') (pos_of y' (f_maker f0))) ty = hupnl (viewed v mk1 p1) ty /\ p_bids (pos_of y' (f_maker f0)) = p_bids p1 /\ p_asks (pos_of y' (f_maker f0)) = p_asks p1).
  { unfold pos_of. rewrite EA, !pos_in_aset, Z.eqb_refl. destruct (Z.eqb_spec (f_taker f0) (f_maker f0)) as [EQ|N].
    - assert (TP : t = p1). { rewrite aget_aset, EQ, Z.eqb_refl in Ht. apply some_inj in Ht. subst at0. rewrite P1 in T1. apply some_inj in T1. congruence. }
      subst t. unfold posn. rewrite T2. split; [exact HT|]. split; assumption.
    - unfold posn. rewrite P1. rewrite M, viewed_oi. split; [reflexivity|]. split; reflexivity. }
  destruct PN as (PN & NB & NA). rewrite NB in L3. rewrite NA in L4. rewrite PO in *.
  split; [reflexivity|]. exists (viewed v mk1 p1). split; [exact PN|]. split; [exact (evolved_overall _ _ _ _ _ _ _ ty EV)|].
  pose proof (evolved_uhupnl _ _ _ _ _ _ _ ty EV (haircut_viewed _ _ _ HC L1 L2)) as U.
  change (pi_lot (viewed v (y_mk y) p)) with (mk_bls (y_mk y)) in U. change (pi_prices (viewed v (y_mk y) p)) with (pv_prices v) in U.
  unfold fill_loss, counted, fill_value. destruct (f_taker_side f0); specialize (U ltac:(lia) ltac:(lia) ltac:(lia) ltac:(lia) L3 L4).
  - cbv zeta in U.
    set (ap := asset_price (pv_prices v) ty) in *. set (fm := fmul _ _) in *. set (q := of_int _) in *. set (m := f_qty f0 * mk_bls (y_mk y) * ap) in *. clearbody m q fm. clear - U. lia.
  - cbv zeta in U.
    set (ap := liab_price (pv_prices v) ty) in *. set (fm := fmul _ _) in *. set (q := of_int _) in *. set (m := f_qty f0 * mk_bls (y_mk y) * ap) in *. clearbody m q fm. clear - U. lia.
Qed.
Theorem C88_maker_keeps : forall cap capq y y' f Q v x ty h h', reached cap capq y -> q_iter (y_q y) = Some (EFill f :: Q) -> consume y = Some y' ->
  haircut v (y_mk y) -> rest_ok x -> user_health v y x (f_maker f) ty = Some h -> user_health v y' x (f_maker f) ty = Some h' ->
  fill_loss v (y_mk y) f ty <= 0 -> h <= h'.
Proof.
  intros cap capq y y' f Q v x ty h h' R HQ C HC (X1 & X2 & X3) H H' L. destruct (maker_step _ _ _ _ _ _ _ R HQ C HC ty) as (OW & u & EU & OU & U). unfold user_health in H, H'.
  eapply health_pnl_up; [|exact X1|exact X2|exact X3|exact H|exact H'|]; [reflexivity|]. rewrite EU. apply hupnl_mono; [exact OU|apply overall_ok, HC|lia].
Qed.
Print Assumptions C88_maker_keeps.

Theorem C88_maker_loses_little : forall cap capq y y' f Q v x ty h h', reached cap capq y -> q_iter (y_q y) = Some (EFill f :: Q) -> consume y = Some y' ->
  haircut v (y_mk y) -> rest_ok x -> user_health v y x (f_maker f) ty = Some h -> user_health v y' x (f_maker f) ty = Some h' ->
  0 <= fill_loss v (y_mk y) f ty ->
  exists t, In t (rs_tokens x) /\ ti_index t = pv_settle v /\ - ((fill_loss v (y_mk y) f ty + 1) * top_price t ty + fone) < (h' - h) * fone.
Proof.
  intros cap capq y y' f Q v x ty h h' R HQ C HC (X1 & X2 & X3) H H' L. destruct (maker_step _ _ _ _ _ _ _ R HQ C HC ty) as (OW & u & EU & OU & U). unfold user_health in H, H'.
  refine (health_pnl_loss _ _ _ _ _ _ _ _ _ (fill_loss v (y_mk y) f ty + 1) _ X1 X2 X3 H H' _ _); [reflexivity|lia|]. rewrite EU.
  pose proof (hupnl_loss _ u ty (fill_loss v (y_mk y) f ty) OU (overall_ok v (y_mk y) _ ty HC) L ltac:(lia)). lia.
Qed.
Print Assumptions C88_maker_loses_little.

Lemma lowered_health cap capq y y' v x pk ty h h' cb ca : reached cap capq y -> reached cap capq y' -> haircut v (y_mk y) -> rest_ok x -> y_mk y' = y_mk y ->
  lowered (pos_of y pk) (pos_of y' pk) cb ca -> user_health v y x pk ty = Some h -> user_health v y' x pk ty = Some h' -> h <= h'.
Proof.
  intros R R' HC (X1 & X2 & X3) M L H H'. destruct (C13_lots_nonneg _ _ _ R pk) as [L1 L2]. destruct (C13_lots_nonneg _ _ _ R' pk) as [L3 L4].
  unfold user_health in H, H'. rewrite M in H'. pose proof (lowered_viewed v (y_mk y) _ _ _ _ L) as EV. destruct L as (C1 & C2 & _).
  eapply health_pnl_up; [|exact X1|exact X2|exact X3|exact H|exact H'|]; [reflexivity|]. apply hupnl_mono; [reflexivity|apply overall_ok, HC|].
  pose proof (evolved_uhupnl _ _ _ _ _ _ _ ty EV (haircut_viewed _ _ _ HC L1 L2) ltac:(lia) ltac:(lia) C1 C2 L3 L4). lia.
Qed.

Theorem C88_out : forall cap capq y y' u Q v x pk ty h h', reached cap capq y -> q_iter (y_q y) = Some (EOut u :: Q) -> consume y = Some y' ->
  haircut v (y_mk y) -> rest_ok x -> user_health v y x pk ty = Some h -> user_health v y' x pk ty = Some h' -> h <= h'.
Proof.
  intros cap capq y y' u Q v x pk ty h h' R HQ C HC X H H'. pose proof (reached_step _ _ _ OpConsume y' R I C) as R'.
  destruct (reached_inv _ _ _ R) as (Q0 & n & HI & HQ0 & HK). rewrite HQ in HQ0. apply some_inj in HQ0. subst Q0.
  destruct (consume_inv _ _ C) as [(f0 & q' & Hp & Eb & Eq & am & am' & mk1 & at0 & at' & Hm & Em & Ht & Et & EA)|(u0 & q' & a & a' & Hp & Ha & Hx & EY)];
    destruct (q_pop_head _ _ _ _ _ _ HK (iv_q _ _ _ _ _ HI) Hp) as (Q1 & E); [discriminate E|]. injection E as -> <-.
  assert (M : y_mk y' = y_mk y) by (rewrite EY; reflexivity).
  assert (U : 0 <= u_qty u0) by (pose proof (iv_qty _ _ _ _ _ HI (EOut u0) (or_introl eq_refl)) as W; cbn [ev_pos] in W; lia).
  destruct (Z.eqb_spec (u_owner u0) pk) as [<-|N].
  - destruct (out_core _ _ _ _ Hx) as (p & P0 & P1).
    refine (lowered_health _ _ _ _ _ _ _ _ _ _ (if u_side u0 then u_qty u0 else 0) (if u_side u0 then 0 else u_qty u0) R R' HC X M _ H H').
    assert (E0 : pos_of y (u_owner u0) = p) by (unfold pos_of, PerpSpec.pos_in; rewrite Ha; unfold posn; rewrite P0; reflexivity).
    assert (E1 : pos_of y' (u_owner u0) = adjust_maker_lots p (u_side u0) (- u_qty u0)) by (rewrite EY; unfold pos_of; cbn [y_accs]; rewrite pos_in_aset, Z.eqb_refl; unfold posn; rewrite P1; reflexivity).
    rewrite E0, E1. unfold lowered, adjust_maker_lots. destruct (u_side u0); (split; [lia|]; split; [lia|]; f_equal; lia).
  - enough (E0 : user_health v y' x pk ty = user_health v y x pk ty) by (rewrite E0, H in H'; apply some_inj in H'; lia).
    unfold user_health. rewrite M. do 4 f_equal. rewrite EY. unfold pos_of. cbn [y_accs]. rewrite pos_in_aset. destruct (Z.eqb_spec (u_owner u0) pk); [congruence|reflexivity].
Qed.
Print Assumptions C88_out.

(** the cancel instructions *)
Definition cancels (op : PerpSystem.op) : Prop := match op with OpCancelId _ _ | OpCancelClient _ _ | OpCancelAll _ _ _ => True | _ => False end.
Theorem C88_cancel : forall cap capq y op y' v x pk ty h h', reached cap capq y -> cancels op -> step y op = Some y' ->
  haircut v (y_mk y) -> rest_ok x -> user_health v y x pk ty = Some h -> user_health v y' x pk ty = Some h' -> h <= h'.
Proof.
  intros cap capq y op y' v x pk ty h h' R CO C HC X H H'.
  pose proof (reached_step _ _ _ op y' R ltac:(destruct op; exact I || contradiction) C) as R'.
  destruct (reached_inv _ _ _ R) as (Q0 & n & HI & HQ0 & HK).
  assert (one : forall k a i, aget (y_accs y) k = Some a -> cancel_slot y k a i = Some y' ->
    exists k a bk' a', aget (y_accs y) k = Some a /\ y' = mkSys bk' (y_mk y) (y_q y) (aset (y_accs y) k a') /\
    (forall p, a_pos a = Some p -> exists p' cb ca, a_pos a' = Some p' /\ lowered p p' cb ca) /\ (a_pos a = None -> a_pos a' = None)).
  { clear - HI. intros k a i A. unfold cancel_slot. destruct (cancel_by_slot _ _ _ _ _) as [[[bk' a']|]|] eqn:Ec; try discriminate. intros E. apply some_inj in E. subst y'.
    destruct (cancel_by_slot_spec _ _ _ _ _ _ _ _ _ (iv_book _ _ _ _ _ HI) Ec) as [Hc _]. exists k, a, bk', a'. split; [exact A|]. split; [reflexivity|]. split.
    - intros p P. exact (cancelled_lowered _ _ _ _ _ _ _ _ _ p (iv_book _ _ _ _ _ HI) Hc P).
    - intros N. destruct Hc as (s & p & p' & q & _ & _ & P0 & _). congruence. }
  assert (G : exists k a bk' a', aget (y_accs y) k = Some a /\ y' = mkSys bk' (y_mk y) (y_q y) (aset (y_accs y) k a') /\
    (forall p, a_pos a = Some p -> exists p' cb ca, a_pos a' = Some p' /\ lowered p p' cb ca) /\ (a_pos a = None -> a_pos a' = None)).
  { destruct op; cbn [cancels] in CO; try contradiction; cbn [step] in C; cbv zeta in C; destruct (aget (y_accs y) pk0) as [a|] eqn:A; try discriminate C.
    - destruct (find_order_id _ _ _) as [i|]; [|discriminate C]. exact (one pk0 a i A C).
    - destruct (find_client_order _ _ _) as [i|]; [|discriminate C]. exact (one pk0 a i A C).
    - destruct (cancel_all _ _ _ _ _ _ _ _) as [[bk' a']|] eqn:EC; [|discriminate C]. apply some_inj in C. subst y'. exists pk0, a, bk', a'. split; [exact A|]. split; [reflexivity|].
      split; [exact (cancel_all_lowered _ _ _ _ _ _ _ _ _ _ _ _ (iv_book _ _ _ _ _ HI) EC)|]. intros N.
      refine (proj1 (cancel_all_ind _ _ _ pk0 only (fun _ a0 => a_pos a0 = None) _ _ _ _ _ _ _ _ (iv_book _ _ _ _ _ HI) N EC)).
      intros bk0 a0 i0 bk1 a1 N0 _ (s & p & p' & q & _ & _ & P0 & _) _. congruence. }
  destruct G as (k & a & bk' & a' & A & EY & G1 & G2). assert (M : y_mk y' = y_mk y) by (rewrite EY; reflexivity).
  destruct (Z.eqb_spec k pk) as [<-|N].
  - assert (E0 : pos_of y k = posn a) by (unfold pos_of, PerpSpec.pos_in; rewrite A; reflexivity).
    assert (E1 : pos_of y' k = posn a') by (rewrite EY; unfold pos_of; cbn [y_accs]; rewrite pos_in_aset, Z.eqb_refl; reflexivity).
    assert (LW : exists cb ca, lowered (pos_of y k) (pos_of y' k) cb ca).
    { rewrite E0, E1. unfold posn. destruct (a_pos a) as [p|] eqn:P; [|rewrite (G2 eq_refl); exists 0, 0; apply lowered_refl].
      destruct (G1 p eq_refl) as (p' & cb & ca & -> & LO). eauto. }
    destruct LW as (cb & ca & LW). exact (lowered_health _ _ _ _ _ _ _ _ _ _ _ _ R R' HC X M LW H H').
  - enough (E0 : user_health v y' x pk ty = user_health v y x pk ty) by (rewrite E0, H in H'; apply some_inj in H'; lia).
    unfold user_health. rewrite M. do 4 f_equal. rewrite EY. unfold pos_of. cbn [y_accs]. rewrite pos_in_aset. destruct (Z.eqb_spec k pk); [congruence|reflexivity].
Qed.
Print Assumptions C88_cancel.

(** ** C89 *)
(** the account's state in the market [y] *)
Definition placed_in (y : sys) (a : pacct) : Prop := aget (y_accs y) (pa_pk a) = Some (pa_acc a).
Definition after_place (y : sys) (a : pacct) (x : pout) : sys := mkSys (po_book x) (po_market x) (po_q x) (aset (y_accs y) (pa_pk a) (po_acc x)).
Definition placing (e : penv) (y : sys) (last : Z) (a : pacct) (o : order) (ro : bool) (limit : nat) : option pout :=
  perp_place_order e (y_bk y) (y_mk y) (y_q y) last a o ro limit.

Lemma reduced_wf ro mro p o o' : order_wf o -> reduced_order ro mro p o = Some o' -> order_wf o' /\ o_max_base o' <= o_max_base o /\ o_side o' = o_side o /\ o_max_quote o' = o_max_quote o /\ o_params o' = o_params o.
Proof.
  intros (B & W). unfold reduced_order. cbv zeta. destruct (mro && _); [discriminate|]. intros E. apply some_inj in E. subst o'. cbn [with_max_base o_max_base o_side o_max_quote o_params o_tif].
  assert (G : 0 <= (if ro || mro then reduce_only_max_base_lots p o mro else o_max_base o) <= o_max_base o).
  { destruct (ro || mro); [|lia]. unfold reduce_only_max_base_lots. cbv zeta.
    assert (A : 0 <= (if o_side o && (0 <=? effective p) || negb (o_side o) && (effective p <=? 0) then 0 else if mro then if o_side o then Z.abs (Z.min (effective p + p_bids p) 0) else Z.max (effective p - p_asks p) 0 else Z.abs (effective p))).
    { destruct (_ || _); [lia|]. destruct mro; [destruct (o_side o)|]; lia. }
    lia. }
  split; [split; [cbn [with_max_base o_max_base]; lia|exact W]|]. split; [lia|]. auto.
Qed.
(** the funding update, as a step of the system *)
Lemma funding_step cap capq y l s : reached cap capq y -> reached cap capq (mkSys (y_bk y) (with_funding (y_mk y) l s) (y_q y) (y_accs y)).
Proof.
  intros R. refine (reached_step _ _ _ (OpMarket l s (mk_maker_fee (y_mk y)) (mk_taker_fee (y_mk y)) (mk_penalty (y_mk y)) (mk_fees_accrued (y_mk y)) (mk_maint_asset_w (y_mk y)) (mk_maint_liab_w (y_mk y))) _ R I _). reflexivity.
Qed.

Theorem C89_only_signed : forall e y last a o ro limit x, placing e y last a o ro limit = Some x ->
  pe_signed e = true /\ 0 <= o_max_base o /\ 0 <= o_max_quote o.
Proof. intros e y last a o ro limit x H. apply place_inv in H as (A & B & C & _). auto. Qed.
Print Assumptions C89_only_signed.

Theorem C89_reached : forall cap capq e y last a o ro limit x, reached cap capq y -> placed_in y a -> order_wf o -> clock_ok (pe_now e) ->
  placing e y last a o ro limit = Some x -> reached cap capq (after_place y a x).
Proof.
  intros cap capq e y last a o ro limit x R P W K H. apply place_inv in H as (_ & _ & _ & mk1 & p & o' & r & F & _ & RO & NO & E1 & E2 & E3 & E4 & _).
  destruct (update_funding_is _ _ _ _ _ _ _ _ F) as (l & s & EM). pose proof (funding_step _ _ _ l s R) as R1. rewrite <- EM in R1.
  destruct (reduced_wf _ _ _ _ _ W RO) as (W' & _). unfold after_place. rewrite E1, E2, E3, E4.
  refine (reached_step _ _ _ (OpPlace (pa_pk a) o' (pe_oracle e) (pe_now e) limit) _ R1 (conj W' K) _). cbn [step y_accs y_bk y_mk y_q]. rewrite P, NO. reflexivity.
Qed.
Print Assumptions C89_reached.

(** as C49, for the whole instruction *)
Theorem C89_reduce_only : forall cap capq e y last a o ro limit x, reached cap capq y -> placed_in y a -> order_wf o -> clock_ok (pe_now e) ->
  placing e y last a o ro limit = Some x -> ro || pe_ro e = true ->
  let p := pos_of y (pa_pk a) in let p' := pos_of (after_place y a x) (pa_pk a) in
  (0 <= effective p -> 0 <= effective p' <= effective p) /\ (effective p <= 0 -> effective p <= effective p' <= 0) /\
  (pe_ro e = true -> effective p' + p_bids p' <= Z.max (effective p + p_bids p) 0 /\ Z.min (effective p - p_asks p) 0 <= effective p' - p_asks p').
Proof.
  intros cap capq e y last a o ro limit x R P W K H RR. cbv zeta. apply place_inv in H as (_ & _ & _ & mk1 & p & o' & r & F & AP & RO & NO & E1 & E2 & E3 & E4 & _).
  destruct (update_funding_is _ _ _ _ _ _ _ _ F) as (l & s & EM). pose proof (funding_step _ _ _ l s R) as R1. rewrite <- EM in R1.
  destruct (reduced_wf _ _ _ _ _ W RO) as (W' & _). destruct (reached_inv _ _ _ R1) as (Q & n & HI & _ & _).
  destruct (inv_place _ _ _ _ _ _ _ _ _ _ _ _ HI W' K P NO) as (ol & new & n' & HC & _). cbn [y_bk y_mk y_q] in HC.
  destruct (call_fees HC) as (p1 & p' & Hp & Hp' & _). rewrite AP in Hp. apply some_inj in Hp. subst p1.
  assert (EP : pos_of y (pa_pk a) = p). { unfold pos_of, PerpSpec.pos_in. rewrite P. unfold posn. unfold ensure_position in AP. destruct (a_pos (pa_acc a)) eqn:E; [rewrite E in AP|cbn [a_pos] in AP]; apply some_inj in AP; exact AP. }
  assert (EP' : pos_of (after_place y a x) (pa_pk a) = p'). { unfold pos_of, after_place. cbn [y_accs]. rewrite pos_in_aset, Z.eqb_refl, E4. unfold posn. rewrite Hp'. reflexivity. }
  rewrite EP, EP'. destruct (C13_lots_nonneg _ _ _ R (pa_pk a)) as [L1 L2]. rewrite EP in L1, L2.
  exact (C49_reduce_only _ _ _ _ _ _ _ _ _ _ _ _ _ _ _ _ _ _ _ _ _ _ AP L1 L2 RR RO HC Hp').
Qed.
Print Assumptions C89_reduce_only.

(** the account's health as the instruction sees it: with the positions whose bank was passed and whose oracle is usable, and with all of them *)
Definition seen_health (v : pview) (mk : market) (a : pacct) (p : position) (ty : htype) : option fx :=
  match build_cache true (pa_L a) (pa_O a) (perps_of v mk a (Some p)) with Some hc => health hc ty | None => None end.
Definition full_health (v : pview) (mk : market) (a : pacct) (p : position) (ty : htype) : option fx :=
  match build_cache false (map complete (pa_L a)) (pa_O a) (perps_of v mk a (Some p)) with Some hc => health hc ty | None => None end.

(** Outside of a health region: before the order the account was not below the liquidation threshold, after it it is healthy or not
    worse off, counting the order's fills, fees and the posted rest.  The market before is the one with the funding updated. *)
Theorem C89_checked : forall e y last a o ro limit x, placing e y last a o ro limit = Some x -> pa_region a = false ->
  ~ In (mk_index (y_mk y)) (map pi_market (pa_P1 a)) ->
  exists mk1 p p' pre liq post, update_funding (y_bk y) (y_mk y) (pe_fc e) last (pe_oracle e) (pe_now e) = Some (mk1, po_last x) /\
    a_pos (ensure_position (pa_acc a)) = Some p /\ a_pos (po_acc x) = Some p' /\
    seen_health (pe_view e) mk1 a p HInit = Some pre /\ seen_health (pe_view e) mk1 a p HLiqEnd = Some liq /\
    seen_health (pe_view e) (po_market x) a p' HInit = Some post /\
    po_flag x = false /\ (pa_flag a = true -> - fone < pre \/ - fone < liq) /\
    (0 <= post \/ pre <= post \/ (post < of_int (-1000) /\ pre < post + fone)).
Proof.
  intros e y last a o ro limit x H RG NI. apply place_inv in H as (_ & _ & _ & mk1 & p & o' & r & F & AP & RO & NO & E1 & E2 & E3 & E4 & _ & [[RG' _]|(_ & hc & h & h2 & p' & hc' & post & B & H1 & H2 & PC & AP' & RC & H3 & PS & _)]); [congruence|].
  destruct (update_funding_is _ _ _ _ _ _ _ _ F) as (l & s & EM). assert (NI' : ~ In (mk_index mk1) (map pi_market (pa_P1 a))) by (rewrite EM; exact NI).
  destruct (recompute_is _ _ _ _ _ _ _ _ _ NI' (new_order_index _ _ _ _ _ _ _ _ _ _ NO) B RC) as (_ & _ & B').
  exists mk1, p, p', h, h2, post. split; [exact F|]. split; [exact AP|]. split; [rewrite E4; exact AP'|]. unfold seen_health. rewrite B, E2, B'. split; [exact H1|]. split; [exact H2|]. split; [exact H3|].
  unfold pre_check in PC. cbv zeta in PC. split; [destruct (if recover (pa_flag a) h then _ else _); [discriminate PC|apply some_inj in PC; auto]|]. split.
  - intros FL. rewrite FL in PC. unfold recover in PC. cbn [andb] in PC. destruct (Z.ltb_spec (- fone) h) as [A|A]; [left; exact A|]. cbn [negb andb] in PC. destruct (Z.ltb_spec (- fone) h2) as [A'|A']; [right; exact A'|]. cbn [negb] in PC. discriminate PC.
  - unfold post_check in PS. apply orb_prop in PS as [PS|PS]; [apply Z.leb_le in PS; auto|]. right. destruct (Z.ltb_spec post (of_int (-1000))) as [LT|LT]; apply Z.leb_le in PS; [right|left; exact PS].
    split; [exact LT|]. pose proof fone_pos. unfold LiqState.fceil in PS. pose proof (Z.div_mod (- h) fone ltac:(lia)). pose proof (Z.mod_pos_bound (- h) fone ltac:(lia)).
    pose proof (Z.div_mod (- post) fone ltac:(lia)). pose proof (Z.mod_pos_bound (- post) fone ltac:(lia)). nia.
Qed.
Print Assumptions C89_checked.

(** Then the account's health with all of its tokens, also those left out of the check, is at least zero afterwards or not lowered. *)
Theorem C89_true_health : forall e y last a o ro limit x mk1 l1 p p' pre post, placing e y last a o ro limit = Some x -> pa_region a = false ->
  ~ In (mk_index (y_mk y)) (map pi_market (pa_P1 a)) ->
  Forall position_ok (pa_L a) -> Forall free_ok (pa_O a) -> Forall all_free (pa_O a) -> NoDup (map (fun q => ti_index (pin_info q)) (pa_L a)) ->
  (forall q, In q (pa_L a) -> ti_index (pin_info q) = pv_settle (pe_view e) -> fair (pin_info q)) ->
  update_funding (y_bk y) (y_mk y) (pe_fc e) last (pe_oracle e) (pe_now e) = Some (mk1, l1) ->
  a_pos (ensure_position (pa_acc a)) = Some p -> a_pos (po_acc x) = Some p' ->
  full_health (pe_view e) mk1 a p HInit = Some pre -> full_health (pe_view e) (po_market x) a p' HInit = Some post ->
  0 <= post \/ pre <= post + 2 \/
  (pre < post + fone + 2 /\ exists s, seen_health (pe_view e) (po_market x) a p' HInit = Some s /\ s < of_int (-1000)).
Proof.
  intros e y last a o ro limit x mk1 l1 p p' pre post H RG NI PO FO AF ND FA F AP AP' HF HF'.
  destruct (C89_checked _ _ _ _ _ _ _ _ H RG NI) as (mk2 & p1 & p2 & spre & liq & spost & F' & Q1 & Q2 & S1 & _ & S2 & _ & _ & CK).
  rewrite F in F'. apply some_inj in F'. apply pair_equal_spec in F' as [<- _]. rewrite AP in Q1. apply some_inj in Q1. subst p1. rewrite AP' in Q2. apply some_inj in Q2. subst p2.
  pose proof S2 as S2'. unfold seen_health in S1, S2. unfold full_health in HF, HF'.
  destruct (build_cache true _ _ (perps_of _ mk1 a _)) as [hs|] eqn:B1; [|discriminate]. destruct (build_cache true _ _ (perps_of _ (po_market x) a _)) as [hs'|] eqn:B2; [|discriminate].
  destruct (build_cache false _ _ (perps_of _ mk1 a _)) as [hf|] eqn:B3; [|discriminate]. destruct (build_cache false _ _ (perps_of _ (po_market x) a _)) as [hf'|] eqn:B4; [|discriminate].
  pose proof (skipped_health _ _ _ _ _ _ _ _ PO FO AF ND B2 B4 S2 HF') as SK.
  destruct (pnl_true _ _ _ _ _ _ _ _ _ _ _ _ _ _ _ PO FO AF ND FA B1 S1 B2 S2 B3 HF B4 HF') as [G|G]; [right; left; lia|].
  destruct CK as [C|[C|[C1 C2]]]; [left; lia|right; left; lia|right; right]. split; [lia|]. exists spost. split; assumption.
Qed.
Print Assumptions C89_true_health.

(** ** C90 *)
Definition forcing (v : pview) (y : sys) (a : pacct) (frozen force : bool) (limit : nat) : option (orderbook * account * bool * bool) :=
  force_cancel_ix v (y_bk y) (y_mk y) a frozen force limit.
Definition after_forcing (y : sys) (a : pacct) (bk : orderbook) (acc : account) : sys := mkSys bk (y_mk y) (y_q y) (aset (y_accs y) (pa_pk a) acc).
(** the account's health, all banks and oracles required *)
Definition acct_health (v : pview) (mk : market) (a : pacct) (pos : option position) (ty : htype) : option fx :=
  match build_cache false (pa_L a) (pa_O a) (perps_of v mk a pos) with Some hc => health hc ty | None => None end.

(** Nobody's orders are touched unless the account is frozen, the market is in force-close mode, or the account can be liquidated. *)
Theorem C90_when : forall v y a frozen force limit bk acc f did, forcing v y a frozen force limit = Some (bk, acc, f, did) ->
  exists maint liq, acct_health v (y_mk y) a (a_pos (pa_acc a)) HMaint = Some maint /\ acct_health v (y_mk y) a (a_pos (pa_acc a)) HLiqEnd = Some liq /\
  (did = true <-> frozen = true \/ force = true \/ (pa_flag a = true /\ liq <= - fone) \/ (pa_flag a = false /\ maint < 0)) /\
  (did = false -> bk = y_bk y /\ acc = pa_acc a).
Proof.
  intros v y a frozen force limit bk acc f did H. apply force_cancel_inv in H as (hc & hm & he & l & f0 & B & H1 & H2 & CL & D & X). exists hm, he. unfold acct_health. rewrite B. split; [exact H1|]. split; [exact H2|]. split.
  - assert (LQ : match l with Liquidatable => true | _ => false end = true <-> (pa_flag a = true /\ he <= - fone) \/ (pa_flag a = false /\ hm < 0)).
    { unfold check_liquidatable, recover in CL. destruct (pa_flag a); cbn [andb] in CL.
      - destruct (Z.ltb_spec (- fone) he) as [A|A]; cbn [negb] in CL; apply pair_equal_spec in CL as [<- _]; (split; [intros E; first [discriminate E|left; split; [reflexivity|lia]]|intros [[_ E]|[E _]]; [lia || reflexivity|discriminate E]]).
      - destruct (Z.leb_spec 0 hm) as [A|A]; apply pair_equal_spec in CL as [<- _]; (split; [intros E; first [discriminate E|right; split; [reflexivity|lia]]|intros [[E _]|[_ E]]; [discriminate E|lia || reflexivity]]). }
    rewrite D, !orb_true_iff, LQ. clear. tauto.
  - intros E. destruct X as [(_ & -> & -> & _)|(E' & _)]; [auto|congruence].
Qed.
Print Assumptions C90_when.

Theorem C90_reached : forall cap capq v y a frozen force limit bk acc f did, reached cap capq y -> placed_in y a ->
  forcing v y a frozen force limit = Some (bk, acc, f, did) -> reached cap capq (after_forcing y a bk acc).
Proof.
  intros cap capq v y a frozen force limit bk acc f did R P H. apply force_cancel_inv in H as (hc & hm & he & l & f0 & _ & _ & _ & _ & _ & [(_ & -> & -> & _)|(_ & C & _)]); unfold after_forcing.
  - rewrite (aset_same _ _ _ P). destruct y; exact R.
  - refine (reached_step _ _ _ (OpCancelAll (pa_pk a) None limit) _ R I _). cbn [step]. rewrite P. cbv zeta. rewrite C. reflexivity.
Qed.
Print Assumptions C90_reached.

(** Only orders of the account are removed, and only those; its base, quote and unprocessed taker amounts stay. *)
Theorem C90_own_orders : forall cap capq v y a frozen force limit bk acc f did p, reached cap capq y -> placed_in y a ->
  forcing v y a frozen force limit = Some (bk, acc, f, did) -> a_pos (pa_acc a) = Some p ->
  exists p', a_pos acc = Some p' /\ p_base p' = p_base p /\ p_quote p' = p_quote p /\ p_taker_base p' = p_taker_base p /\ p_taker_quote p' = p_taker_quote p /\
  forall sd, exists removed, Permutation.Permutation (resting sd (y_bk y)) (removed ++ resting sd bk) /\
    (forall e, In e removed -> l_owner (snd e) = pa_pk a) /\ side_lots sd p' = side_lots sd p - qsum removed.
Proof.
  intros cap capq v y a frozen force limit bk acc f did p R P H AP. destruct (reached_inv _ _ _ R) as (Q & n & HI & _).
  apply force_cancel_inv in H as (hc & hm & he & l & f0 & _ & _ & _ & _ & _ & [(_ & -> & -> & _)|(_ & C & _)]).
  - exists p. do 5 (split; [assumption || reflexivity|]). intros sd. exists []. split; [apply Permutation.Permutation_refl|]. split; [intros e []|]. cbn. lia.
  - destruct (C17_cancel_all_effect _ _ _ _ _ _ _ _ _ _ _ _ (iv_book _ _ _ _ _ HI) C) as (_ & G).
    destruct (G Bid) as (rem0 & _ & _ & _ & G1 & _). destruct (G1 p AP) as (p' & P' & _ & B1 & B2 & B3 & B4). exists p'. do 5 (split; [assumption|]).
    intros sd. destruct (G sd) as (rem & PM & OW & _ & G2 & _). exists rem. split; [exact PM|]. split; [exact OW|]. destruct (G2 p AP) as (p2 & P2 & L & _). rewrite P' in P2. apply some_inj in P2. subst p2. exact L.
Qed.
Print Assumptions C90_own_orders.

(** No kind of health is lowered, and the mark: it is kept only while the liquidation-end health stays at -1 or below. *)
Theorem C90_health : forall cap capq v y a frozen force limit bk acc f did p p' ty h h', reached cap capq y -> placed_in y a -> haircut v (y_mk y) ->
  Forall position_ok (pa_L a) -> Forall all_free (pa_O a) -> NoDup (map (fun q => ti_index (pin_info q)) (pa_L a)) ->
  forcing v y a frozen force limit = Some (bk, acc, f, did) -> a_pos (pa_acc a) = Some p -> a_pos acc = Some p' ->
  acct_health v (y_mk y) a (Some p) ty = Some h -> acct_health v (y_mk y) a (Some p') ty = Some h' -> h <= h'.
Proof.
  intros cap capq v y a frozen force limit bk acc f did p p' ty h h' R P HC PO AF ND H AP AP' HH HH'.
  pose proof (C90_reached _ _ _ _ _ _ _ _ _ _ _ _ R P H) as R'. destruct (reached_inv _ _ _ R) as (Q & n & HI & _).
  apply force_cancel_inv in H as (hc & hm & he & l & f0 & _ & _ & _ & _ & _ & [(_ & -> & -> & _)|(_ & C & _)]); [rewrite AP in AP'; apply some_inj in AP'; subst p'; rewrite HH in HH'; apply some_inj in HH'; lia|].
  unfold acct_health in HH, HH'. destruct (build_cache false _ _ (perps_of v (y_mk y) a (Some p))) as [hc0|] eqn:B; [|discriminate].
  rewrite (build_perps false _ _ _ _ _ (settle_split v (y_mk y) (y_mk y) a p p') B) in HH'.
  destruct (built_facts _ _ _ _ PO AF ND B) as (N & TO & NR & HP). destruct hc0 as [T S P0]. cbn [hc_tokens hc_serum hc_perps] in *. subst P0. unfold perps_of in HH, HH'. cbn [app] in HH, HH'.
  destruct (cancel_all_lowered _ _ _ _ _ _ _ _ _ _ _ _ (iv_book _ _ _ _ _ HI) C p AP) as (p2 & cb & ca & P2 & LO). rewrite AP' in P2. apply some_inj in P2. subst p2.
  refine (lowered_health cap capq y (after_forcing y a bk acc) v (mkRest T S (pa_P1 a) (pa_P2 a)) (pa_pk a) ty h h' cb ca R R' HC (conj NR (conj N TO)) eq_refl _ _ _).
  - assert (E0 : pos_of y (pa_pk a) = p) by (unfold pos_of, PerpSpec.pos_in; rewrite P; unfold posn; rewrite AP; reflexivity).
    assert (E1 : pos_of (after_forcing y a bk acc) (pa_pk a) = p') by (unfold pos_of, after_forcing; cbn [y_accs]; rewrite pos_in_aset, Z.eqb_refl; unfold posn; rewrite AP'; reflexivity). rewrite E0, E1. exact LO.
  - unfold user_health. cbn [rs_tokens rs_serum rs_before rs_after]. replace (pos_of y (pa_pk a)) with p; [exact HH|]. unfold pos_of, PerpSpec.pos_in. rewrite P. unfold posn. rewrite AP. reflexivity.
  - unfold user_health. cbn [rs_tokens rs_serum rs_before rs_after]. replace (pos_of (after_forcing y a bk acc) (pa_pk a)) with p'; [exact HH'|]. unfold pos_of, after_forcing. cbn [y_accs]. rewrite pos_in_aset, Z.eqb_refl. unfold posn. rewrite AP'. reflexivity.
Qed.
Print Assumptions C90_health.

Theorem C90_mark : forall v y a frozen force limit bk acc f p p', forcing v y a frozen force limit = Some (bk, acc, f, true) ->
  a_pos (pa_acc a) = Some p -> a_pos acc = Some p' -> ~ In (mk_index (y_mk y)) (map pi_market (pa_P1 a)) ->
  exists maint liq liq', acct_health v (y_mk y) a (Some p) HMaint = Some maint /\ acct_health v (y_mk y) a (Some p) HLiqEnd = Some liq /\
    acct_health v (y_mk y) a (Some p') HLiqEnd = Some liq' /\
    (f = true <-> ((pa_flag a = true /\ liq <= - fone) \/ (pa_flag a = false /\ maint < 0)) /\ liq' <= - fone).
Proof.
  intros v y a frozen force limit bk acc f p p' H AP AP' NI. apply force_cancel_inv in H as (hc & hm & he & l & f0 & B & H1 & H2 & CL & D & [(E & _)|(_ & C & p2 & hc' & h' & P2 & RC & H3 & EF)]); [discriminate E|].
  rewrite AP' in P2. apply some_inj in P2. subst p2. rewrite AP in B. destruct (recompute_is _ _ _ _ _ _ _ _ _ NI eq_refl B RC) as (_ & _ & B').
  exists hm, he, h'. unfold acct_health. rewrite B, B'. split; [exact H1|]. split; [exact H2|]. split; [exact H3|]. rewrite EF. unfold recover. rewrite andb_true_iff, negb_true_iff, Z.ltb_ge.
  assert (F0 : f0 = true <-> (pa_flag a = true /\ he <= - fone) \/ (pa_flag a = false /\ hm < 0)).
  { unfold check_liquidatable, recover in CL. destruct (pa_flag a); cbn [andb] in CL.
    - destruct (Z.ltb_spec (- fone) he) as [A|A]; cbn [negb] in CL; apply pair_equal_spec in CL as [_ <-]; (split; [intros E; first [discriminate E|left; split; [reflexivity|lia]]|intros [[_ E]|[E _]]; [lia || reflexivity|discriminate E]]).
    - destruct (Z.leb_spec 0 hm) as [A|A]; apply pair_equal_spec in CL as [_ <-]; (split; [intros E; first [discriminate E|right; split; [reflexivity|lia]]|intros [[E _]|[_ E]]; [discriminate E|lia || reflexivity]]). }
  rewrite F0. reflexivity.
Qed.
Print Assumptions C90_mark.
(** *** examples *)
(** weights 0.5 and 1.5 for init and maintenance, prices 20; the settle token is token 0 *)
Definition ex_pview : pview := mkPV 0 (mkBP (fone / 2) (3 * fone / 2) fone fone 0 0 0) (mkPr (of_int 20) (of_int 20)).
Definition ex_rest : rest := mkRest [tok_w 0 100 100 100; tok_w 1 80 120 7] [] [] [].
(** account 1 bids 7 at 25, account 2 sells it 5: with a maker fee of 2^-12 *)
Definition ex_dear : list op := [OpCreate 1 4; OpCreate 2 4; OpCreate 3 4; ex_place 1 Bid 25 7; ex_place 2 Ask 25 5].
(** account 1's bid expires and is taken out when account 2's ask runs into it *)
Definition ex_old : list op :=
  [OpCreate 1 4; OpCreate 2 4; OpPlace 1 (mkOrder Bid 7 1000 77 10 DecrementTake (PFixed 18 PTLimit)) (of_int 20) 1000 10;
   OpPlace 2 (mkOrder Ask 5 1000 77 0 DecrementTake (PFixed 18 PTLimit)) (of_int 20) 2000 10].
(** account 2 sells 5 lots at 18 to account 1; token 1 of its account is not passed *)
Definition ex_two : list op := [OpCreate 1 4; OpCreate 2 4; ex_place 1 Bid 18 7].
Definition ex_penv (ro : bool) : penv := mkPE ex_pview ex_fc ro (of_int 20) 1000 true.
Definition ex_pacct (pk : Z) (acc : account) (settle : Z) : pacct :=
  mkPA pk acc false false [mkPosIn true true true (tok_w 0 100 110 settle); mkPosIn false true true (tok_w 1 80 120 7)] [] [] [].
Ltac hcut := unfold haircut, prices_ok; repeat match goal with |- _ /\ _ => split end; zc.
Ltac rok := split; [constructor|]; split; [vm_compute; repeat constructor; cbn; intuition discriminate|]; repeat (apply Forall_cons; [tokok|]); apply Forall_nil.

(** the fill at 25 costs the maker 25 and the fee on 125, and nobody else anything *)
Example C88_dear_example : exists y y' f h h', reached 16 8 y /\ q_iter (y_q y) = Some [EFill f] /\ consume y = Some y' /\ haircut ex_pview (y_mk y) /\ rest_ok ex_rest /\
  f_maker f = 1 /\ fill_loss ex_pview (y_mk y) f HInit = of_int 25 + 125 * 2 ^ 36 /\
  user_health ex_pview y ex_rest 1 HInit = Some h /\ user_health ex_pview y' ex_rest 1 HInit = Some h' /\ h - h' = of_int 25 + 125 * 2 ^ 36 /\
  f_taker f = 2 /\ user_health ex_pview y ex_rest 2 HInit = user_health ex_pview y' ex_rest 2 HInit.
Proof.
  ex_run (2 ^ 36) (2 ^ 38) 1 ex_dear. eexists _, _, _, _, _. split; [exact Hr|]. split; [vm_compute; reflexivity|]. split; [vm_compute; reflexivity|]. split; [hcut|]. split; [rok|].
  split; [vm_compute; reflexivity|]. split; [vm_compute; reflexivity|]. split; [vm_compute; reflexivity|]. split; [vm_compute; reflexivity|]. split; [vm_compute; reflexivity|]. split; vm_compute; reflexivity.
Qed.
(** a fill at 18 does not hurt its maker *)
Example C88_cheap_example : exists y y' f h h', reached 16 8 y /\ q_iter (y_q y) = Some [EFill f] /\ consume y = Some y' /\ haircut ex_pview (y_mk y) /\
  f_maker f = 1 /\ fill_loss ex_pview (y_mk y) f HInit < of_int (-9) /\
  user_health ex_pview y ex_rest 1 HInit = Some h /\ user_health ex_pview y' ex_rest 1 HInit = Some h' /\ h < h'.
Proof.
  ex_run (2 ^ 36) (2 ^ 38) 1 ex_hist. eexists _, _, _, _, _. split; [exact Hr|]. split; [vm_compute; reflexivity|]. split; [vm_compute; reflexivity|]. split; [hcut|].
  split; [vm_compute; reflexivity|]. split; [zc|]. split; [vm_compute; reflexivity|]. split; [vm_compute; reflexivity|]. zc.
Qed.
Example C88_out_example : exists y y' u h h', reached 16 8 y /\ q_iter (y_q y) = Some [EOut u] /\ consume y = Some y' /\ haircut ex_pview (y_mk y) /\ u_owner u = 1 /\
  user_health ex_pview y ex_rest 1 HInit = Some h /\ user_health ex_pview y' ex_rest 1 HInit = Some h' /\ h < h'.
Proof.
  destruct (run_ops (ex_fresh (2 ^ 36) (2 ^ 38) 1) ex_old) as [y|] eqn:E; [|vm_compute in E; discriminate].
  assert (W : Forall op_wf ex_old). { unfold ex_old. apply Forall_cons; [exact I|]. apply Forall_cons; [exact I|]. apply Forall_cons; [|apply Forall_cons; [|apply Forall_nil]]; unfold op_wf, order_wf, clock_ok, in_i64, i64_min, i64_max, u64_max; cbn; lia. }
  pose proof (ex_reached (2 ^ 36) (2 ^ 38) 1 ex_old y W E) as Hr. vm_compute in E. injection E as <-.
  eexists _, _, _, _, _. split; [exact Hr|]. split; [vm_compute; reflexivity|]. split; [vm_compute; reflexivity|]. split; [hcut|].
  split; [vm_compute; reflexivity|]. split; [vm_compute; reflexivity|]. split; [vm_compute; reflexivity|]. zc.
Qed.
Example C88_cancel_example : exists y y' h h', reached 16 8 y /\ step y (OpCancelAll 1 None 10) = Some y' /\ haircut ex_pview (y_mk y) /\
  user_health ex_pview y ex_rest 1 HInit = Some h /\ user_health ex_pview y' ex_rest 1 HInit = Some h' /\ h < h'.
Proof.
  ex_run (2 ^ 36) (2 ^ 38) 1 ex_hist. eexists _, _, _, _. split; [exact Hr|]. split; [vm_compute; reflexivity|]. split; [hcut|].
  split; [vm_compute; reflexivity|]. split; [vm_compute; reflexivity|]. zc.
Qed.

(** account 2 sells 5 lots; its health as seen falls from 100 to about 39.9 *)
Example C89_example : exists y acc x pre post p', reached 16 8 y /\ let a := ex_pacct 2 acc 100 in let o := ex_lim Ask 18 5 in
  placed_in y a /\ order_wf o /\ clock_ok (pe_now (ex_penv false)) /\ placing (ex_penv false) y 900 a o false 10 = Some x /\ pa_region a = false /\
  ~ In (mk_index (y_mk y)) (map pi_market (pa_P1 a)) /\ Forall position_ok (pa_L a) /\ NoDup (map (fun q => ti_index (pin_info q)) (pa_L a)) /\
  (forall q, In q (pa_L a) -> ti_index (pin_info q) = 0 -> fair (pin_info q)) /\
  a_pos (po_acc x) = Some p' /\ p_taker_base p' = -5 /\
  seen_health ex_pview (y_mk y) a pos0 HInit = Some pre /\ seen_health ex_pview (po_market x) a p' HInit = Some post /\ pre = of_int 100 /\ post < of_int 40 /\
  placing (ex_penv false) y 900 a (ex_lim Ask 18 50) false 10 = None.
Proof.
  ex_run (2 ^ 36) (2 ^ 38) 1 ex_two. eexists _, _, _, _, _, _. split; [exact Hr|]. cbv zeta. split; [vm_compute; reflexivity|].
  split; [unfold order_wf, ex_lim, in_i64, i64_min, i64_max, u64_max; cbn; lia|]. split; [unfold clock_ok, u64_max; cbn; lia|]. split; [vm_compute; reflexivity|]. split; [reflexivity|]. split; [intros []|].
  split; [unfold ex_pacct; cbn [pa_L]; apply Forall_cons; [pos1|]; apply Forall_cons; [pos1|]; apply Forall_nil|]. split; [vm_compute; repeat constructor; cbn; intuition discriminate|].
  split; [intros q [<-|[<-|[]]]; cbn [pin_info tok_w ti_index]; intros E; [|discriminate E]; unfold fair; split; [zc|]; split; zc|].
  split; [vm_compute; reflexivity|]. split; [reflexivity|]. split; [vm_compute; reflexivity|]. split; [vm_compute; reflexivity|]. split; [vm_compute; reflexivity|]. split; [zc|]. vm_compute. reflexivity.
Qed.
(** reduce-only without a position: nothing is sold *)
Example C89_reduce_example : exists y acc x, reached 16 8 y /\ let a := ex_pacct 2 acc 100 in placed_in y a /\ placing (ex_penv true) y 900 a (ex_lim Ask 18 5) true 10 = Some x /\
  p_taker_base (pos_of (after_place y a x) 2) = 0 /\ po_id x = None.
Proof. ex_run (2 ^ 36) (2 ^ 38) 1 ex_two. eexists _, _, _. split; [exact Hr|]. cbv zeta. split; [vm_compute; reflexivity|]. split; [vm_compute; reflexivity|]. split; vm_compute; reflexivity. Qed.

(** account 1's bids bring its health below zero; they are cancelled, and it is not left marked *)
Definition ex_facct (acc : account) (settle : Z) : pacct := mkPA 1 acc false false [mkPosIn true true (0 <=? settle) (tok_w 0 100 110 settle)] [] [] [].
Example C90_example : exists y acc bk acc' p p' h h', reached 16 8 y /\ let a := ex_facct acc 20 in placed_in y a /\ haircut ex_pview (y_mk y) /\
  forcing ex_pview y a false false 10 = Some (bk, acc', false, true) /\ Forall position_ok (pa_L a) /\ NoDup (map (fun q => ti_index (pin_info q)) (pa_L a)) /\
  a_pos acc = Some p /\ a_pos acc' = Some p' /\ p_bids p = 7 /\ p_bids p' = 0 /\
  acct_health ex_pview (y_mk y) a (Some p) HMaint = Some h /\ acct_health ex_pview (y_mk y) a (Some p') HMaint = Some h' /\ h < 0 /\ h' = of_int 20.
Proof.
  ex_run (2 ^ 36) (2 ^ 38) 1 ex_two. eexists _, _, _, _, _, _, _, _. split; [exact Hr|]. cbv zeta. split; [vm_compute; reflexivity|]. split; [hcut|]. split; [vm_compute; reflexivity|].
  split; [unfold ex_facct; cbn [pa_L]; apply Forall_cons; [pos1|]; apply Forall_nil|]. split; [vm_compute; repeat constructor; cbn; intuition discriminate|].
  split; [vm_compute; reflexivity|]. split; [vm_compute; reflexivity|]. split; [reflexivity|]. split; [reflexivity|]. split; [vm_compute; reflexivity|]. split; [vm_compute; reflexivity|]. split; [zc|]. vm_compute. reflexivity.
Qed.
(** with a loan of 10 it stays marked; with 200 of the settle token nothing is cancelled *)
Example C90_marked_example : exists y acc bk acc', reached 16 8 y /\ placed_in y (ex_facct acc (-10)) /\ forcing ex_pview y (ex_facct acc (-10)) false false 10 = Some (bk, acc', true, true) /\
  forcing ex_pview y (ex_facct acc 200) false false 10 = Some (y_bk y, acc, false, false).
Proof. ex_run (2 ^ 36) (2 ^ 38) 1 ex_two. eexists _, _, _, _. split; [exact Hr|]. split; [vm_compute; reflexivity|]. split; [vm_compute; reflexivity|]. vm_compute. reflexivity. Qed.

(** Passing the health check when an order is placed does not mean that its fill leaves the account healthy: open orders count at the
    oracle and stable price, not at their own.  A bid of 7 at 25 passes at price 20 with 70 of collateral and init and maintenance weights
    alike; once filled, at the same prices, the account can be liquidated. *)
Theorem C88_healthy_refuted : exists y0 acc x y1 y2 y3 pre h,
  reached 16 8 y0 /\ let a := ex_facct acc 70 in placed_in y0 a /\ placing (ex_penv false) y0 900 a (ex_lim Bid 25 7) false 10 = Some x /\ y1 = after_place y0 a x /\
  acct_health ex_pview (y_mk y1) a (Some (pos_of y1 1)) HInit = Some pre /\ 0 <= pre /\
  step y1 (ex_place 2 Ask 25 7) = Some y2 /\ consume y2 = Some y3 /\
  acct_health ex_pview (y_mk y3) a (Some (pos_of y3 1)) HMaint = Some h /\ h < 0.
Proof.
  destruct (run_ops (ex_fresh 0 0 0) [OpCreate 1 4; OpCreate 2 4]) as [y|] eqn:E; [|vm_compute in E; discriminate].
  pose proof (ex_reached 0 0 0 [OpCreate 1 4; OpCreate 2 4] y ltac:(ex_wf) E) as Hr. vm_compute in E. injection E as <-.
  eexists _, _, _, _, _, _, _, _. split; [exact Hr|]. cbv zeta. split; [vm_compute; reflexivity|]. split; [vm_compute; reflexivity|]. split; [reflexivity|].
  split; [vm_compute; reflexivity|]. split; [zc|]. split; [vm_compute; reflexivity|]. split; [vm_compute; reflexivity|]. split; [vm_compute; reflexivity|]. zc.
Qed.
Print Assumptions C88_healthy_refuted.
