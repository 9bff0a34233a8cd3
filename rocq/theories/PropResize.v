(** C33: resizing a mango account preserves its content. *)
From Coq Require Import ZArith List Bool Lia.
From Verif Require Import AccountSlots Resize ResizeFacts.
Import ListNotations.
Open Scope Z_scope.

(** The slots of one kind, as lists of bytes. *)
Definition slots (m : mem) (start : Z) (k : kind) (n : nat) : list (list Z) :=
  map (slot m start k) (seq 0 n).

Definition tokens_of m h := slots m (token_off h) k_token (tc h).
Definition serums_of m h := slots m (serum_off h) k_serum (sc h).
Definition perps_of m h := slots m (perp_off h) k_perp (pc h).
Definition orders_of m h := slots m (oo_off h) k_oo (oc h).
Definition swaps_of m h := slots m (tcs_off h) k_tcs (cc h).

(** The slots in use, in order, followed by [default] slots up to length [n]. *)
Definition in_use_first (k : kind) (l : list (list Z)) (n : nat) : list (list Z) :=
  filter (kactive k) l ++ repeat (kdefault k) (n - length (filter (kactive k) l)).

Ltac lin :=
  unfold dynamic_size, token_off, serum_off, perp_off, oo_off, tcs_off, reserved_off,
    tcs_vec, oo_vec, perp_vec, serum_vec, token_vec, bytes_of in *;
  cbn [ksize k_token k_serum k_perp k_oo k_tcs] in *;
  change (Z.of_nat 184) with 184 in *; change (Z.of_nat 120) with 120 in *;
  change (Z.of_nat 304) with 304 in *; change (Z.of_nat 96) with 96 in *;
  change (Z.of_nat 200) with 200 in *; cbn [length zeros repeat] in *; try lia.

Lemma map_seq_app : forall A (f : nat -> A) a b, map f (seq 0 (a + b)) = map f (seq 0 a) ++ map f (seq a b).
Proof. intros. rewrite seq_app, map_app. reflexivity. Qed.

Lemma slots_fit : forall (f : nat -> list Z) k l act n, (act <= n)%nat ->
  map f (seq 0 act) = filter (kactive k) l -> (forall j, (act <= j < n)%nat -> f j = kdefault k) ->
  map f (seq 0 n) = in_use_first k l n.
Proof.
  intros f k l act n Hle Hf Hd. unfold in_use_first. rewrite <- Hf. rewrite map_length, seq_length.
  replace n with (act + (n - act))%nat at 1 by lia. rewrite map_seq_app. f_equal.
  assert (G : forall c s, (forall j, (s <= j < s + c)%nat -> f j = kdefault k) -> map f (seq s c) = repeat (kdefault k) c).
  { induction c as [|c IH]; intros s H; [reflexivity|]. cbn [seq map repeat]. rewrite (H s) by lia. f_equal. apply IH. intros; apply H; lia. }
  apply G. intros j Hj. apply Hd. lia.
Qed.

(** everything the resize leaves behind, in terms of the bytes before *)
Lemma resize_facts : forall len m old new m', resize len m old new = Some m' ->
  exists m4 at_ as_ ap bo ac m6,
    (at_ <= tc new)%nat /\ (as_ <= sc new)%nat /\ (ap <= pc new)%nat /\ (bo <= oc new)%nat /\ (ac <= cc new)%nat /\
    (at_ <= tc old)%nat /\ (as_ <= sc old)%nat /\ (ap <= pc old)%nat /\ (bo <= oc old)%nat /\ (ac <= cc old)%nat /\
    map (slot m4 (token_off old) k_token) (seq 0 at_) = filter (kactive k_token) (tokens_of m old) /\
    map (slot m4 (serum_off old) k_serum) (seq 0 as_) = filter (kactive k_serum) (serums_of m old) /\
    map (slot m4 (perp_off old) k_perp) (seq 0 ap) = filter (kactive k_perp) (perps_of m old) /\
    (forall j, (j < oc old)%nat -> slot m4 (oo_off old) k_oo j = slot m (oo_off old) k_oo j) /\
    (forall j, (bo <= j < oc old)%nat -> kactive k_oo (slot m (oo_off old) k_oo j) = false) /\
    map (slot m4 (tcs_off old) k_tcs) (seq 0 ac) = filter (kactive k_tcs) (swaps_of m old) /\
    (forall a, a < token_off old -> m4 a = m a) /\
    m6 = (let L := [mkBlock (serum_off old) (serum_off new) (bytes_of k_serum as_);
                    mkBlock (perp_off old) (perp_off new) (bytes_of k_perp ap);
                    mkBlock (oo_off old) (oo_off new) (bytes_of k_oo bo);
                    mkBlock (tcs_off old) (tcs_off new) (bytes_of k_tcs ac)] in
          fold_right (fun b m => move_right m b) (fold_left move_left L m4) L) /\
    m' = (let d1 := defaults m6 (token_off new) k_token at_ (tc new - at_) in
          let d2 := defaults d1 (serum_off new) k_serum as_ (sc new - as_) in
          let d3 := defaults d2 (perp_off new) k_perp ap (pc new - ap) in
          let d4 := defaults d3 (oo_off new) k_oo bo (oc new - bo) in
          let d5 := defaults d4 (tcs_off new) k_tcs ac (cc new - ac) in
          let r := write d5 (reserved_off new) (zeros 64) in
          let l1 := write_len r (token_off new) (tc new) in
          let l2 := write_len l1 (serum_off new) (sc new) in
          let l3 := write_len l2 (perp_off new) (pc new) in
          let l4 := write_len l3 (oo_off new) (oc new) in
          write_len l4 (tcs_off new) (cc new)).
Proof.
  intros len m old new m' H. unfold resize in H.
  destruct (negb (check_resize new old)); [discriminate|].
  destruct (defrag m (token_off old) k_token 0 (tc old) 0) as [m1 at_] eqn:E1.
  destruct (defrag m1 (serum_off old) k_serum 0 (sc old) 0) as [m2 as_] eqn:E2.
  destruct (defrag m2 (perp_off old) k_perp 0 (pc old) 0) as [m3 ap] eqn:E3.
  destruct (defrag m3 (tcs_off old) k_tcs 0 (cc old) 0) as [m4 ac] eqn:E4.
  set (bo := blocked m3 (oo_off old) k_oo (oc old)) in H.
  match type of H with (if negb ?X then _ else _) = _ => destruct X eqn:EF; [|discriminate] end. cbn [negb] in H.
  destruct (len <? reserved_off new + 64); [discriminate|].
  injection H as <-.
  apply andb_true_iff in EF. destruct EF as [EF F5]. apply andb_true_iff in EF. destruct EF as [EF F4].
  apply andb_true_iff in EF. destruct EF as [EF F3]. apply andb_true_iff in EF. destruct EF as [F1 F2].
  apply Nat.leb_le in F1, F2, F3, F4, F5.
  destruct (defrag_spec _ _ _ _ _ _ E1) as [A1 [B1 [C1 _]]].
  destruct (defrag_spec _ _ _ _ _ _ E2) as [A2 [B2 [C2 _]]].
  destruct (defrag_spec _ _ _ _ _ _ E3) as [A3 [B3 [C3 _]]].
  destruct (defrag_spec _ _ _ _ _ _ E4) as [A4 [B4 [C4 _]]].
  destruct (blocked_spec m3 (oo_off old) k_oo (oc old)) as [Q1 [Q2 _]]. fold bo in Q1, Q2.
  assert (OO : forall j, (j < oc old)%nat -> slot m3 (oo_off old) k_oo j = slot m (oo_off old) k_oo j).
  { intros j Hj. apply slot_ext. intros x Hx. rewrite B3 by lin. rewrite B2 by lin. apply B1. lin. }
  exists m4, at_, as_, ap, bo, ac. eexists.
  split; [exact F1|]. split; [exact F2|]. split; [exact F3|]. split; [exact F4|]. split; [exact F5|].
  split; [exact C1|]. split; [exact C2|]. split; [exact C3|]. split; [exact Q1|]. split; [exact C4|].
  split.
  { unfold tokens_of, slots. rewrite <- A1. apply map_seq_ext. intros i Hi. apply slot_ext. intros x Hx.
    rewrite B4 by lin. rewrite B3 by lin. apply B2. lin. }
  split.
  { unfold serums_of, slots. replace (map (slot m (serum_off old) k_serum) (seq 0 (sc old)))
      with (map (slot m1 (serum_off old) k_serum) (seq 0 (sc old))).
    - rewrite <- A2. apply map_seq_ext. intros i Hi. apply slot_ext. intros x Hx. rewrite B4 by lin. apply B3. lin.
    - apply map_seq_ext. intros i Hi. apply slot_ext. intros x Hx. apply B1. lin. }
  split.
  { unfold perps_of, slots. replace (map (slot m (perp_off old) k_perp) (seq 0 (pc old)))
      with (map (slot m2 (perp_off old) k_perp) (seq 0 (pc old))).
    - rewrite <- A3. apply map_seq_ext. intros i Hi. apply slot_ext. intros x Hx. apply B4. lin.
    - apply map_seq_ext. intros i Hi. apply slot_ext. intros x Hx. rewrite B2 by lin. apply B1. lin. }
  split.
  { intros j Hj. rewrite <- OO by exact Hj. apply slot_ext. intros x Hx. apply B4. lin. }
  split.
  { intros j Hj. rewrite <- OO by lia. apply Q2. exact Hj. }
  split.
  { unfold swaps_of, slots. rewrite A4. f_equal. apply map_seq_ext. intros i Hi. apply slot_ext. intros x Hx.
    rewrite B3 by lin. rewrite B2 by lin. apply B1. lin. }
  split.
  { intros a Ha. rewrite B4 by lin. rewrite B3 by lin. rewrite B2 by lin. apply B1. lin. }
  split; reflexivity.
Qed.

Lemma kdef_len : length (kdefault k_token) = ksize k_token /\ length (kdefault k_serum) = ksize k_serum /\
  length (kdefault k_perp) = ksize k_perp /\ length (kdefault k_oo) = ksize k_oo /\ length (kdefault k_tcs) = ksize k_tcs.
Proof. repeat split; reflexivity. Qed.

(** ** Content: every token, serum, perp and conditional swap slot in use is kept
    byte for byte and in order, the other slots are default; perp open orders
    keep their slot number, and no order appears. *)
Theorem C33_resize_preserves : forall len m old new m', resize len m old new = Some m' ->
  tokens_of m' new = in_use_first k_token (tokens_of m old) (tc new) /\
  serums_of m' new = in_use_first k_serum (serums_of m old) (sc new) /\
  perps_of m' new = in_use_first k_perp (perps_of m old) (pc new) /\
  swaps_of m' new = in_use_first k_tcs (swaps_of m old) (cc new) /\
  (forall i o, nth_error (orders_of m old) i = Some o -> kactive k_oo o = true ->
               nth_error (orders_of m' new) i = Some o) /\
  (forall i o, nth_error (orders_of m' new) i = Some o -> kactive k_oo o = true ->
               nth_error (orders_of m old) i = Some o) /\
  length (orders_of m' new) = oc new.
Proof.
  intros len m old new m' H.
  destruct (resize_facts len m old new m' H) as
    (m4 & at_ & as_ & ap & bo & ac & m6 & F1 & F2 & F3 & F4 & F5 & C1 & C2 & C3 & C4 & C5 & T & SE & P & O & Q & W & LO & E6 & E').
  destruct kdef_len as [K1 [K2 [K3 [K4 K5]]]].
  set (L := [mkBlock (serum_off old) (serum_off new) (bytes_of k_serum as_);
                    mkBlock (perp_off old) (perp_off new) (bytes_of k_perp ap);
                    mkBlock (oo_off old) (oo_off new) (bytes_of k_oo bo);
                    mkBlock (tcs_off old) (tcs_off new) (bytes_of k_tcs ac)]) in E6.
  assert (HO : ordered L).
  { unfold L. apply ordered4; cbn [mo mw mn]; lin. }
  assert (HB : forall b, In b L -> holds m6 m4 mw b) by (intros b Hb; rewrite E6; apply passes; auto).
  assert (Hs : forall x, 0 <= x < bytes_of k_serum as_ -> m6 (serum_off new + x) = m4 (serum_off old + x))
    by (apply (HB (mkBlock _ _ _)); left; reflexivity).
  assert (Hp : forall x, 0 <= x < bytes_of k_perp ap -> m6 (perp_off new + x) = m4 (perp_off old + x))
    by (apply (HB (mkBlock _ _ _)); right; left; reflexivity).
  assert (Ho : forall x, 0 <= x < bytes_of k_oo bo -> m6 (oo_off new + x) = m4 (oo_off old + x))
    by (apply (HB (mkBlock _ _ _)); right; right; left; reflexivity).
  assert (Hc : forall x, 0 <= x < bytes_of k_tcs ac -> m6 (tcs_off new + x) = m4 (tcs_off old + x))
    by (apply (HB (mkBlock _ _ _)); right; right; right; left; reflexivity).
  assert (Ht : forall x, 0 <= x < bytes_of k_token at_ -> m6 (token_off new + x) = m4 (token_off old + x)).
  { intros x Hx. rewrite E6. cbn zeta. rewrite passes_frame; [reflexivity|].
    intros b Hb. left. unfold L in Hb. destruct Hb as [<-|[<-|[<-|[<-|[]]]]]; cbn [mw]; lin. }
  cbn zeta in E'. clear E6 HB HO.
  destruct (defaults_spec (token_off new) k_token (tc new - at_) at_ m6 K1) as [D1 D1'].
  set (d1 := defaults m6 (token_off new) k_token at_ (tc new - at_)) in *.
  destruct (defaults_spec (serum_off new) k_serum (sc new - as_) as_ d1 K2) as [D2 D2'].
  set (d2 := defaults d1 (serum_off new) k_serum as_ (sc new - as_)) in *.
  destruct (defaults_spec (perp_off new) k_perp (pc new - ap) ap d2 K3) as [D3 D3'].
  set (d3 := defaults d2 (perp_off new) k_perp ap (pc new - ap)) in *.
  destruct (defaults_spec (oo_off new) k_oo (oc new - bo) bo d3 K4) as [D4 D4'].
  set (d4 := defaults d3 (oo_off new) k_oo bo (oc new - bo)) in *.
  destruct (defaults_spec (tcs_off new) k_tcs (cc new - ac) ac d4 K5) as [D5 D5'].
  set (d5 := defaults d4 (tcs_off new) k_tcs ac (cc new - ac)) in *.
  replace (at_ + (tc new - at_))%nat with (tc new) in * by lia.
  replace (as_ + (sc new - as_))%nat with (sc new) in * by lia.
  replace (ap + (pc new - ap))%nat with (pc new) in * by lia.
  replace (bo + (oc new - bo))%nat with (oc new) in * by lia.
  replace (ac + (cc new - ac))%nat with (cc new) in * by lia.
  clearbody d1 d2 d3 d4 d5.
  assert (TAIL : forall a, (token_off new <= a < token_off new + bytes_of k_token (tc new)) \/
                 (serum_off new <= a < serum_off new + bytes_of k_serum (sc new)) \/
                 (perp_off new <= a < perp_off new + bytes_of k_perp (pc new)) \/
                 (oo_off new <= a < oo_off new + bytes_of k_oo (oc new)) \/
                 (tcs_off new <= a < tcs_off new + bytes_of k_tcs (cc new)) -> m' a = d5 a).
  { intros a Ha. rewrite E'. rewrite !write_len_out by lin. apply write_out. lin. }
  clear E' K1 K2 K3 K4 K5 L.
  assert (HT : tokens_of m' new = in_use_first k_token (tokens_of m old) (tc new)).
  { unfold tokens_of at 1. unfold slots. apply slots_fit with (act := at_); [exact F1| |].
    - rewrite <- T. apply map_seq_ext. intros i Hi. apply slot_ext. intros x Hx.
      rewrite TAIL by lin. rewrite D5' by lin. rewrite D4' by lin. rewrite D3' by lin. rewrite D2' by lin. rewrite D1' by lin.
      apply Ht. lin.
    - intros j Hj. rewrite <- (D1 j Hj). apply slot_ext. intros x Hx.
      rewrite TAIL by lin. rewrite D5' by lin. rewrite D4' by lin. rewrite D3' by lin. apply D2'. lin. }
  assert (HSE : serums_of m' new = in_use_first k_serum (serums_of m old) (sc new)).
  { unfold serums_of at 1. unfold slots. apply slots_fit with (act := as_); [exact F2| |].
    - rewrite <- SE. apply map_seq_ext. intros i Hi. apply slot_ext. intros x Hx.
      rewrite TAIL by lin. rewrite D5' by lin. rewrite D4' by lin. rewrite D3' by lin. rewrite D2' by lin. rewrite D1' by lin.
      apply Hs. lin.
    - intros j Hj. rewrite <- (D2 j Hj). apply slot_ext. intros x Hx.
      rewrite TAIL by lin. rewrite D5' by lin. rewrite D4' by lin. apply D3'. lin. }
  assert (HPE : perps_of m' new = in_use_first k_perp (perps_of m old) (pc new)).
  { unfold perps_of at 1. unfold slots. apply slots_fit with (act := ap); [exact F3| |].
    - rewrite <- P. apply map_seq_ext. intros i Hi. apply slot_ext. intros x Hx.
      rewrite TAIL by lin. rewrite D5' by lin. rewrite D4' by lin. rewrite D3' by lin. rewrite D2' by lin. rewrite D1' by lin.
      apply Hp. lin.
    - intros j Hj. rewrite <- (D3 j Hj). apply slot_ext. intros x Hx.
      rewrite TAIL by lin. rewrite D5' by lin. apply D4'. lin. }
  assert (HSW : swaps_of m' new = in_use_first k_tcs (swaps_of m old) (cc new)).
  { unfold swaps_of at 1. unfold slots. apply slots_fit with (act := ac); [exact F5| |].
    - rewrite <- W. apply map_seq_ext. intros i Hi. apply slot_ext. intros x Hx.
      rewrite TAIL by lin. rewrite D5' by lin. rewrite D4' by lin. rewrite D3' by lin. rewrite D2' by lin. rewrite D1' by lin.
      apply Hc. lin.
    - intros j Hj. rewrite <- (D5 j Hj). apply slot_ext. intros x Hx. apply TAIL. lin. }
  assert (OK : forall i, (i < bo)%nat -> slot m' (oo_off new) k_oo i = slot m (oo_off old) k_oo i).
  { intros i Hi. rewrite <- O by lia. apply slot_ext. intros x Hx.
    rewrite TAIL by lin. rewrite D5' by lin. rewrite D4' by lin. rewrite D3' by lin. rewrite D2' by lin. rewrite D1' by lin.
    apply Ho. lin. }
  assert (OD : forall j, (bo <= j < oc new)%nat -> slot m' (oo_off new) k_oo j = kdefault k_oo).
  { intros j Hj. rewrite <- (D4 j Hj). apply slot_ext. intros x Hx. rewrite TAIL by lin. apply D5'. lin. }
  assert (NTH : forall mm h i o, nth_error (orders_of mm h) i = Some o <-> (i < oc h)%nat /\ o = slot mm (oo_off h) k_oo i).
  { intros mm h i o. unfold orders_of, slots. split.
    - intros Hn. assert (Hi : (i < oc h)%nat).
      { assert (X : nth_error (map (slot mm (oo_off h) k_oo) (seq 0 (oc h))) i <> None) by congruence.
        apply nth_error_Some in X. rewrite map_length, seq_length in X. exact X. }
      split; [exact Hi|]. rewrite nth_error_map in Hn. rewrite (nth_error_nth' (seq 0 (oc h)) 0%nat) in Hn by (rewrite seq_length; exact Hi).
      rewrite seq_nth in Hn by exact Hi. cbn [option_map Nat.add] in Hn. congruence.
    - intros [Hi ->]. rewrite nth_error_map. rewrite (nth_error_nth' (seq 0 (oc h)) 0%nat) by (rewrite seq_length; exact Hi).
      rewrite seq_nth by exact Hi. reflexivity. }
  split; [exact HT|]. split; [exact HSE|]. split; [exact HPE|]. split; [exact HSW|].
  split; [|split].
  - intros i o Hn Ha. apply NTH in Hn. destruct Hn as [Hi ->]. apply NTH.
    assert (i < bo)%nat.
    { destruct (le_lt_dec bo i) as [X|X]; [|exact X]. rewrite (Q i) in Ha by lia. discriminate. }
    split; [lia|]. symmetry. apply OK. assumption.
  - intros i o Hn Ha. apply NTH in Hn. destruct Hn as [Hi ->]. apply NTH.
    assert (i < bo)%nat.
    { destruct (le_lt_dec bo i) as [X|X]; [|exact X]. rewrite (OD i) in Ha by lia. discriminate. }
    split; [lia|]. apply OK. assumption.
  - unfold orders_of, slots. rewrite map_length, seq_length. reflexivity.
Qed.
Print Assumptions C33_resize_preserves.

(** the same at the level of slot lists, as used by the histories of C32/C64 *)
Theorem C33_refines_slot_lists : forall len m old new m', resize len m old new = Some m' ->
  refit (kactive k_token) (kdefault k_token) (tokens_of m old) (tc new) = Some (tokens_of m' new) /\
  refit (kactive k_serum) (kdefault k_serum) (serums_of m old) (sc new) = Some (serums_of m' new) /\
  refit (kactive k_perp) (kdefault k_perp) (perps_of m old) (pc new) = Some (perps_of m' new) /\
  refit (kactive k_tcs) (kdefault k_tcs) (swaps_of m old) (cc new) = Some (swaps_of m' new).
Proof.
  intros len m old new m' H. destruct (C33_resize_preserves len m old new m' H) as [A [B [C [D _]]]].
  rewrite A, B, C, D.
  assert (G : forall k l n, length (in_use_first k l n) = n -> refit (kactive k) (kdefault k) l n = Some (in_use_first k l n)).
  { intros k l n Hl. unfold refit, in_use_first in *. rewrite app_length, repeat_length in Hl.
    rewrite (proj2 (Nat.leb_le _ n)); [reflexivity|lia]. }
  split; [|split; [|split]]; apply G; [rewrite <- A|rewrite <- B|rewrite <- C|rewrite <- D];
    unfold tokens_of, serums_of, perps_of, swaps_of, slots; rewrite map_length, seq_length; reflexivity.
Qed.
Print Assumptions C33_refines_slot_lists.

(** ** The header: the stored lengths are the new ones (so that loading the
    account again sees the new layout), and the bytes before the slots survive. *)
Definition u8_counts (h : hdr) : Prop :=
  (tc h <= 255)%nat /\ (sc h <= 255)%nat /\ (pc h <= 255)%nat /\ (oc h <= 255)%nat /\ (cc h <= 255)%nat.

Lemma write_len_count : forall m off c, (c <= 255)%nat -> count_at (write_len m off c) (off - 4) = Some c.
Proof.
  intros m off c Hc. unfold count_at, u32_at, write_len.
  rewrite !write_in by (cbn [length]; lia).
  replace (off - 4 - (off - 4)) with 0 by lia. replace (off - 4 + 1 - (off - 4)) with 1 by lia.
  replace (off - 4 + 2 - (off - 4)) with 2 by lia. replace (off - 4 + 3 - (off - 4)) with 3 by lia.
  change (Z.to_nat 0) with 0%nat. change (Z.to_nat 1) with 1%nat. change (Z.to_nat 2) with 2%nat. change (Z.to_nat 3) with 3%nat.
  cbn [nth]. replace (Z.of_nat c + 256 * 0 + 65536 * 0 + 16777216 * 0) with (Z.of_nat c) by lia.
  rewrite (proj2 (Z.leb_le 0 (Z.of_nat c))) by lia. rewrite (proj2 (Z.leb_le (Z.of_nat c) 255)) by lia.
  cbn [andb]. rewrite Nat2Z.id. reflexivity.
Qed.

Lemma count_at_ext : forall m1 m2 a, (forall x, a <= x < a + 4 -> m1 x = m2 x) -> count_at m1 a = count_at m2 a.
Proof. intros m1 m2 a H. unfold count_at, u32_at. rewrite !H by lia. reflexivity. Qed.

Theorem C33_header : forall len m old new m' len', resize len m old new = Some m' -> u8_counts new ->
  m 0 = 1 -> dynamic_size new <= len' ->
  parse m' len' = Some new /\
  (forall a, 0 <= a < 8 -> m' a = m a) /\
  read m' (reserved_off new) 64 = zeros 64.
Proof.
  intros len m old new m' len' H [U1 [U2 [U3 [U4 U5]]]] HV HL.
  destruct (resize_facts len m old new m' H) as
    (m4 & at_ & as_ & ap & bo & ac & m6 & F1 & F2 & F3 & F4 & F5 & C1 & C2 & C3 & C4 & C5 & T & SE & P & O & Q & W & LO & E6 & E').
  clear T SE P O Q W H. destruct kdef_len as [K1 [K2 [K3 [K4 K5]]]].
  assert (H6 : forall a, 0 <= a < 8 -> m6 a = m a).
  { intros a Ha. rewrite E6. cbn zeta. rewrite passes_frame; [apply LO; lin|].
    intros b Hb. left. destruct Hb as [<-|[<-|[<-|[<-|[]]]]]; cbn [mw]; lin. }
  cbn zeta in E'. clear E6.
  destruct (defaults_spec (token_off new) k_token (tc new - at_) at_ m6 K1) as [_ D1'].
  set (d1 := defaults m6 (token_off new) k_token at_ (tc new - at_)) in *.
  destruct (defaults_spec (serum_off new) k_serum (sc new - as_) as_ d1 K2) as [_ D2'].
  set (d2 := defaults d1 (serum_off new) k_serum as_ (sc new - as_)) in *.
  destruct (defaults_spec (perp_off new) k_perp (pc new - ap) ap d2 K3) as [_ D3'].
  set (d3 := defaults d2 (perp_off new) k_perp ap (pc new - ap)) in *.
  destruct (defaults_spec (oo_off new) k_oo (oc new - bo) bo d3 K4) as [_ D4'].
  set (d4 := defaults d3 (oo_off new) k_oo bo (oc new - bo)) in *.
  destruct (defaults_spec (tcs_off new) k_tcs (cc new - ac) ac d4 K5) as [_ D5'].
  set (d5 := defaults d4 (tcs_off new) k_tcs ac (cc new - ac)) in *.
  clearbody d1 d2 d3 d4 d5.
  assert (HLOW : forall a, 0 <= a < 8 -> m' a = m a).
  { intros a Ha. rewrite E'. rewrite !write_len_out by lin. rewrite write_out by lin.
    rewrite D5' by lin. rewrite D4' by lin. rewrite D3' by lin. rewrite D2' by lin. rewrite D1' by lin. apply H6; exact Ha. }
  clear D1' D2' D3' D4' D5' H6 LO.
  assert (N1 : count_at m' token_vec = Some (tc new)).
  { rewrite <- (write_len_count (write d5 (reserved_off new) (zeros 64)) (token_off new) (tc new) U1).
    replace (token_off new - 4) with token_vec by lin. apply count_at_ext. intros x Hx. rewrite E'. rewrite !write_len_out by lin. reflexivity. }
  assert (N2 : count_at m' (serum_vec new) = Some (sc new)).
  { rewrite <- (write_len_count (write_len (write d5 (reserved_off new) (zeros 64)) (token_off new) (tc new)) (serum_off new) (sc new) U2).
    replace (serum_off new - 4) with (serum_vec new) by lin. apply count_at_ext. intros x Hx. rewrite E'.
    rewrite (write_len_out _ (tcs_off new)) by lin. rewrite (write_len_out _ (oo_off new)) by lin. rewrite (write_len_out _ (perp_off new)) by lin. reflexivity. }
  assert (N3 : count_at m' (perp_vec new) = Some (pc new)).
  { rewrite <- (write_len_count (write_len (write_len (write d5 (reserved_off new) (zeros 64)) (token_off new) (tc new)) (serum_off new) (sc new)) (perp_off new) (pc new) U3).
    replace (perp_off new - 4) with (perp_vec new) by lin. apply count_at_ext. intros x Hx. rewrite E'.
    rewrite (write_len_out _ (tcs_off new)) by lin. rewrite (write_len_out _ (oo_off new)) by lin. reflexivity. }
  assert (N4 : count_at m' (oo_vec new) = Some (oc new)).
  { rewrite <- (write_len_count (write_len (write_len (write_len (write d5 (reserved_off new) (zeros 64)) (token_off new) (tc new)) (serum_off new) (sc new)) (perp_off new) (pc new)) (oo_off new) (oc new) U4).
    replace (oo_off new - 4) with (oo_vec new) by lin. apply count_at_ext. intros x Hx. rewrite E'.
    rewrite (write_len_out _ (tcs_off new)) by lin. reflexivity. }
  assert (N5 : count_at m' (tcs_vec new) = Some (cc new)).
  { rewrite <- (write_len_count (write_len (write_len (write_len (write_len (write d5 (reserved_off new) (zeros 64)) (token_off new) (tc new)) (serum_off new) (sc new)) (perp_off new) (pc new)) (oo_off new) (oc new)) (tcs_off new) (cc new) U5).
    replace (tcs_off new - 4) with (tcs_vec new) by lin. rewrite E'. reflexivity. }
  split; [|split; [exact HLOW|]].
  - unfold parse. rewrite HLOW by lia. rewrite HV. change (negb (1 =? 1)) with false. cbv iota. rewrite N1.
    change (serum_vec (mkHdr (tc new) 0 0 0 0)) with (serum_vec new). rewrite N2.
    change (perp_vec (mkHdr (tc new) (sc new) 0 0 0)) with (perp_vec new). rewrite N3.
    change (oo_vec (mkHdr (tc new) (sc new) (pc new) 0 0)) with (oo_vec new). rewrite N4.
    cbv zeta. change (tcs_vec (mkHdr (tc new) (sc new) (pc new) (oc new) 0)) with (tcs_vec new). rewrite N5.
    assert (HX : tcs_vec new + 4 <? len' = true) by (apply Z.ltb_lt; clear - HL; lin).
    rewrite HX. destruct new; reflexivity.
  - transitivity (read (write d5 (reserved_off new) (zeros 64)) (reserved_off new) 64).
    + apply read_ext. intros x Hx. change (Z.of_nat 64) with 64 in Hx. rewrite E'. rewrite !write_len_out by lin. reflexivity.
    + change 64%nat with (length (zeros 64)) at 2. apply read_write.
Qed.
Print Assumptions C33_header.

(** ** Rejection: a resize is refused exactly when the limits for growing are
    exceeded, when what is in use does not fit, or when the account data is too
    short for the new layout. *)
Definition highest_order (l : list (list Z)) (n : nat) : Prop :=
  exists i o, nth_error l i = Some o /\ kactive k_oo o = true /\ (n <= i)%nat.

Definition grows_too_much (old new : hdr) : Prop :=
  ((2 * tc old + sc old + 2 * pc old < 2 * tc new + sc new + 2 * pc new)%nat /\ (28 < 2 * tc new + sc new + 2 * pc new)%nat)
  \/ ((oc old < oc new)%nat /\ (64 < oc new)%nat) \/ ((cc old < cc new)%nat /\ (64 < cc new)%nat).

Lemma check_resize_spec : forall new old, check_resize new old = false <-> grows_too_much old new.
Proof.
  intros new old. unfold check_resize, grows_too_much, health_accounts.
  assert (G : forall a b lim : nat, (negb (Nat.ltb a b) || Nat.leb b lim = false <-> (a < b)%nat /\ (lim < b)%nat)).
  { intros a b lim. rewrite orb_false_iff, negb_false_iff, Nat.ltb_lt, Nat.leb_gt. reflexivity. }
  rewrite !andb_false_iff, !G. lia.
Qed.

Theorem C33_rejects : forall len m old new,
  resize len m old new = None <->
  grows_too_much old new
  \/ (tc new < length (filter (kactive k_token) (tokens_of m old)))%nat
  \/ (sc new < length (filter (kactive k_serum) (serums_of m old)))%nat
  \/ (pc new < length (filter (kactive k_perp) (perps_of m old)))%nat
  \/ highest_order (orders_of m old) (oc new)
  \/ (cc new < length (filter (kactive k_tcs) (swaps_of m old)))%nat
  \/ len < dynamic_size new.
Proof.
  intros len m old new. rewrite <- check_resize_spec. unfold resize.
  destruct (check_resize new old); cbn [negb]; [|split; [left; reflexivity|reflexivity]].
  destruct (defrag m (token_off old) k_token 0 (tc old) 0) as [m1 at_] eqn:E1.
  destruct (defrag m1 (serum_off old) k_serum 0 (sc old) 0) as [m2 as_] eqn:E2.
  destruct (defrag m2 (perp_off old) k_perp 0 (pc old) 0) as [m3 ap] eqn:E3.
  destruct (defrag m3 (tcs_off old) k_tcs 0 (cc old) 0) as [m4 ac] eqn:E4.
  set (bo := blocked m3 (oo_off old) k_oo (oc old)).
  destruct (defrag_spec _ _ _ _ _ _ E1) as [A1 [B1 [C1 L1]]].
  destruct (defrag_spec _ _ _ _ _ _ E2) as [A2 [B2 [C2 L2]]].
  destruct (defrag_spec _ _ _ _ _ _ E3) as [A3 [B3 [C3 L3]]].
  destruct (defrag_spec _ _ _ _ _ _ E4) as [A4 [B4 [C4 L4]]].
  destruct (blocked_spec m3 (oo_off old) k_oo (oc old)) as [Q1 [Q2 Q3]]. fold bo in Q1, Q2, Q3.
  assert (OO : forall j, (j < oc old)%nat -> slot m3 (oo_off old) k_oo j = slot m (oo_off old) k_oo j).
  { intros j Hj. apply slot_ext. intros x Hx. rewrite B3 by lin. rewrite B2 by lin. apply B1. lin. }
  assert (T : length (filter (kactive k_token) (tokens_of m old)) = at_) by (rewrite L1; reflexivity).
  assert (SE : length (filter (kactive k_serum) (serums_of m old)) = as_).
  { rewrite L2. unfold serums_of, slots. f_equal. f_equal. apply map_seq_ext. intros i Hi. apply slot_ext. intros x Hx. symmetry. apply B1. lin. }
  assert (P : length (filter (kactive k_perp) (perps_of m old)) = ap).
  { rewrite L3. unfold perps_of, slots. f_equal. f_equal. apply map_seq_ext. intros i Hi. apply slot_ext. intros x Hx. symmetry.
    rewrite B2 by lin. apply B1. lin. }
  assert (W : length (filter (kactive k_tcs) (swaps_of m old)) = ac).
  { rewrite L4. unfold swaps_of, slots. f_equal. f_equal. apply map_seq_ext. intros i Hi. apply slot_ext. intros x Hx. symmetry.
    rewrite B3 by lin. rewrite B2 by lin. apply B1. lin. }
  assert (HB : highest_order (orders_of m old) (oc new) <-> (oc new < bo)%nat).
  { unfold highest_order, orders_of, slots. split.
    - intros [i [o [Hn [Ha Hi]]]].
      assert (Hlt : (i < oc old)%nat).
      { assert (X : nth_error (map (slot m (oo_off old) k_oo) (seq 0 (oc old))) i <> None) by congruence.
        apply nth_error_Some in X. rewrite map_length, seq_length in X. exact X. }
      rewrite nth_error_map, (nth_error_nth' (seq 0 (oc old)) 0%nat), seq_nth in Hn by (rewrite ?seq_length; exact Hlt).
      cbn [option_map Nat.add] in Hn. injection Hn as <-.
      destruct (le_lt_dec bo i) as [X|X]; [|lia]. rewrite <- OO, Q2 in Ha by lia. discriminate.
    - intros Hlt. destruct bo as [|j] eqn:EB; [lia|]. exists j, (slot m (oo_off old) k_oo j).
      split; [|split; [|lia]].
      + rewrite nth_error_map, (nth_error_nth' (seq 0 (oc old)) 0%nat), seq_nth by (rewrite ?seq_length; lia). reflexivity.
      + rewrite <- OO by lia. apply Q3. reflexivity. }
  rewrite T, SE, P, W, HB. unfold dynamic_size.
  match goal with |- (if negb ?X then _ else _) = _ <-> _ => destruct X eqn:EF end; cbn [negb].
  - apply andb_true_iff in EF. destruct EF as [EF F5]. apply andb_true_iff in EF. destruct EF as [EF F4].
    apply andb_true_iff in EF. destruct EF as [EF F3]. apply andb_true_iff in EF. destruct EF as [F1 F2].
    apply Nat.leb_le in F1, F2, F3, F4, F5.
    destruct (Z.ltb_spec len (reserved_off new + 64)) as [X|X].
    + split; [intros _; lia|reflexivity].
    + split; [discriminate|]. intros Y. exfalso. assert (false <> true) by discriminate. lia.
  - split; [intros _|reflexivity].
    rewrite !andb_false_iff, !Nat.leb_gt in EF. lia.
Qed.
Print Assumptions C33_rejects.

(** ** Example: an account with a hole in every list (two token slots of which
    the second is used, two perp slots of which the second is used, four order
    slots of which the third is used, ...) resized to smaller token, serum, perp
    and order lists and a longer list of conditional swaps; every preserved block
    moves, the blocks overlap their old places. *)
Definition ex_old := mkHdr 3 2 2 4 1.
Definition ex_new := mkHdr 2 1 1 3 2.
Definition ex_token (ix : Z) : list Z := repeat 11 16 ++ [ix; 0] ++ repeat 12 166.
Definition ex_serum (ix : Z) : list Z := repeat 21 48 ++ [ix; 0] ++ repeat 22 70.
Definition ex_perp (ix : Z) : list Z := [ix; 0] ++ repeat 31 302.
Definition ex_oo (ix : Z) : list Z := [1; 0; ix; 0] ++ repeat 41 92.
Definition ex_tcs (ix : Z) : list Z := repeat 51 84 ++ [1] ++ repeat 52 115.
Definition ex_mem : mem :=
  let m0 : mem := fun a => if a =? 0 then 1 else 99 in
  let m1 := write_len (write_len (write_len (write_len (write_len m0 (token_off ex_old) 3) (serum_off ex_old) 2)
                (perp_off ex_old) 2) (oo_off ex_old) 4) (tcs_off ex_old) 1 in
  let m2 := write m1 (token_off ex_old) (kdefault k_token ++ ex_token 5 ++ ex_token 0) in
  let m3 := write m2 (serum_off ex_old) (kdefault k_serum ++ ex_serum 7) in
  let m4 := write m3 (perp_off ex_old) (kdefault k_perp ++ ex_perp 3) in
  let m5 := write m4 (oo_off ex_old) (ex_oo 3 ++ kdefault k_oo ++ ex_oo 3 ++ kdefault k_oo) in
  write m5 (tcs_off ex_old) (ex_tcs 1).

Example C33_example :
  parse ex_mem 3000 = Some ex_old /\
  (exists m', resize (dynamic_size ex_new) ex_mem ex_old ex_new = Some m' /\
     parse m' (dynamic_size ex_new) = Some ex_new /\
     tokens_of m' ex_new = [ex_token 5; ex_token 0] /\
     serums_of m' ex_new = [ex_serum 7] /\
     perps_of m' ex_new = [ex_perp 3] /\
     orders_of m' ex_new = [ex_oo 3; kdefault k_oo; ex_oo 3] /\
     swaps_of m' ex_new = [ex_tcs 1; kdefault k_tcs]) /\
  resize 3000 ex_mem ex_old (mkHdr 1 1 1 3 2) = None /\
  resize 3000 ex_mem ex_old (mkHdr 2 1 1 2 2) = None /\
  resize (dynamic_size ex_new - 1) ex_mem ex_old ex_new = None.
Proof.
  split; [vm_compute; reflexivity|].
  split.
  - eexists. split; [reflexivity|].
    split; [vm_compute; reflexivity|]. split; [vm_compute; reflexivity|]. split; [vm_compute; reflexivity|].
    split; [vm_compute; reflexivity|]. split; [vm_compute; reflexivity|]. vm_compute; reflexivity.
  - split; [vm_compute; reflexivity|]. split; vm_compute; reflexivity.
Qed.
