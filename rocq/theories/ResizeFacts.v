(** Lemmas about the byte-level resize. *)
From Coq Require Import ZArith List Bool Lia.
From Verif Require Import Resize.
Import ListNotations.
Open Scope Z_scope.

Lemma in_range : forall lo a hi, lo <= a < hi -> (lo <=? a) && (a <? hi) = true.
Proof. intros. apply andb_true_iff. split; [apply Z.leb_le|apply Z.ltb_lt]; lia. Qed.
Lemma out_range : forall lo a hi, a < lo \/ hi <= a -> (lo <=? a) && (a <? hi) = false.
Proof. intros lo a hi H. apply andb_false_iff. rewrite Z.leb_gt, Z.ltb_ge. lia. Qed.

Lemma memmove_in : forall m d s n a, d <= a < d + n -> memmove m d s n a = m (s + (a - d)).
Proof. intros. unfold memmove. rewrite in_range by lia. reflexivity. Qed.
Lemma memmove_out : forall m d s n a, a < d \/ d + n <= a -> memmove m d s n a = m a.
Proof. intros. unfold memmove. rewrite out_range by lia. reflexivity. Qed.
Lemma write_out : forall m o l a, a < o \/ o + Z.of_nat (length l) <= a -> write m o l a = m a.
Proof. intros. unfold write. rewrite out_range by lia. reflexivity. Qed.
Lemma write_in : forall m o l a, o <= a < o + Z.of_nat (length l) -> write m o l a = nth (Z.to_nat (a - o)) l 0.
Proof. intros. unfold write. rewrite in_range by lia. reflexivity. Qed.
Lemma write_len_out : forall m o c a, a < o - 8 \/ o <= a -> write_len m o c a = m a.
Proof. intros. unfold write_len. rewrite !write_out; [reflexivity| |]; cbn [length zeros repeat]; lia. Qed.

Lemma read_ext : forall m1 m2 o1 o2 n, (forall x, 0 <= x < Z.of_nat n -> m1 (o1 + x) = m2 (o2 + x)) ->
  read m1 o1 n = read m2 o2 n.
Proof. intros. unfold read. apply map_ext_in. intros i Hi. apply in_seq in Hi. apply H. lia. Qed.

Lemma read_write : forall m o l, read (write m o l) o (length l) = l.
Proof.
  intros m o l. unfold read. apply nth_ext with (d := 0) (d' := 0); rewrite map_length, seq_length; [reflexivity|].
  intros i Hi. rewrite (nth_indep _ 0 (write m o l (o + Z.of_nat 0))) by (rewrite map_length, seq_length; exact Hi).
  rewrite map_nth with (f := fun i => write m o l (o + Z.of_nat i)). rewrite seq_nth by exact Hi.
  rewrite write_in by lia. f_equal. lia.
Qed.

Lemma bytes_S : forall k i, bytes_of k (S i) = bytes_of k i + Z.of_nat (ksize k).
Proof. intros. unfold bytes_of. lia. Qed.
Lemma bytes_mono : forall k i j, (i <= j)%nat -> bytes_of k i <= bytes_of k j.
Proof. intros. unfold bytes_of. nia. Qed.
Lemma bytes_lt : forall k i j, (i < j)%nat -> bytes_of k i + Z.of_nat (ksize k) <= bytes_of k j.
Proof. intros. unfold bytes_of. nia. Qed.

Lemma slot_ext : forall m1 m2 s1 s2 k i,
  (forall x, bytes_of k i <= x < bytes_of k i + Z.of_nat (ksize k) -> m1 (s1 + x) = m2 (s2 + x)) ->
  slot m1 s1 k i = slot m2 s2 k i.
Proof.
  intros m1 m2 s1 s2 k i H. unfold slot. apply read_ext. intros x Hx. unfold slot_off.
  replace (s1 + bytes_of k i + x) with (s1 + (bytes_of k i + x)) by lia.
  replace (s2 + bytes_of k i + x) with (s2 + (bytes_of k i + x)) by lia. apply H. lia.
Qed.

Lemma map_seq_ext : forall A (f g : nat -> A) n, (forall i, (i < n)%nat -> f i = g i) ->
  map f (seq 0 n) = map g (seq 0 n).
Proof. intros. apply map_ext_in. intros i Hi. apply in_seq in Hi. apply H. lia. Qed.

Lemma seq_snoc : forall n, seq 0 (S n) = seq 0 n ++ [n].
Proof. intros. rewrite seq_S. reflexivity. Qed.

Lemma defrag_gen : forall start k m0 n i act m, (act <= i)%nat ->
  map (slot m start k) (seq 0 act) = filter (kactive k) (map (slot m0 start k) (seq 0 i)) ->
  (forall a, a < start \/ start + bytes_of k i <= a -> m a = m0 a) ->
  forall m1 act1, defrag m start k i n act = (m1, act1) ->
  map (slot m1 start k) (seq 0 act1) = filter (kactive k) (map (slot m0 start k) (seq 0 (i + n))) /\
  (forall a, a < start \/ start + bytes_of k (i + n) <= a -> m1 a = m0 a) /\ (act1 <= i + n)%nat.
Proof.
  intros start k m0. induction n as [|n IH]; intros i act m Hle Hs Hf m1 act1 H; cbn [defrag] in H.
  - injection H as <- <-. rewrite Nat.add_0_r. auto.
  - assert (Hi : slot m start k i = slot m0 start k i).
    { apply slot_ext. intros x Hx. apply Hf. lia. }
    assert (Hfil : filter (kactive k) (map (slot m0 start k) (seq 0 (S i)))
            = filter (kactive k) (map (slot m0 start k) (seq 0 i)) ++ (if kactive k (slot m start k i) then [slot m start k i] else [])).
    { rewrite seq_snoc, map_app, filter_app. cbn [map filter]. rewrite Hi. reflexivity. }
    change (read m (slot_off start k i) (ksize k)) with (slot m start k i) in H.
    replace (i + S n)%nat with (S i + n)%nat by lia.
    destruct (kactive k (slot m start k i)) eqn:EA.
    + refine (IH _ _ _ _ _ _ _ _ H); [lia| |].
      * rewrite Hfil, seq_snoc, map_app. cbn [map]. rewrite <- Hs.
        destruct (Nat.eqb_spec i act) as [->|N]; [reflexivity|].
        f_equal.
        -- apply map_seq_ext. intros j Hj. apply slot_ext. intros x Hx. apply memmove_out. left.
           unfold slot_off. pose proof (bytes_lt k j act Hj). lia.
        -- f_equal. apply read_ext. intros x Hx. unfold slot_off at 1. rewrite memmove_in by (unfold slot_off; lia).
           f_equal. unfold slot_off. lia.
      * intros a Ha. destruct (Nat.eqb_spec i act) as [->|N].
        -- apply Hf. rewrite bytes_S in Ha. lia.
        -- rewrite memmove_out.
           ++ apply Hf. rewrite bytes_S in Ha. lia.
           ++ unfold slot_off. rewrite bytes_S in Ha.
              assert (bytes_of k act <= bytes_of k i) by (apply bytes_mono; lia).
              assert (0 <= bytes_of k act) by (unfold bytes_of; nia). lia.
    + refine (IH _ _ _ _ _ _ _ _ H); [lia| |].
      * rewrite Hfil, app_nil_r. exact Hs.
      * intros a Ha. apply Hf. rewrite bytes_S in Ha. lia.
Qed.

Lemma defrag_spec : forall start k m n m1 act, defrag m start k 0 n 0 = (m1, act) ->
  map (slot m1 start k) (seq 0 act) = filter (kactive k) (map (slot m start k) (seq 0 n)) /\
  (forall a, a < start \/ start + bytes_of k n <= a -> m1 a = m a) /\ (act <= n)%nat /\
  act = length (filter (kactive k) (map (slot m start k) (seq 0 n))).
Proof.
  intros start k m n m1 act H.
  destruct (defrag_gen start k m n 0 0 m (le_n 0) eq_refl (fun a _ => eq_refl) m1 act H) as [A [B C]].
  split; [exact A|]. split; [exact B|]. split; [exact C|]. cbn [Nat.add] in A. rewrite <- A, map_length, seq_length. reflexivity.
Qed.

Lemma blocked_spec : forall m start k n,
  (blocked m start k n <= n)%nat /\
  (forall j, (blocked m start k n <= j < n)%nat -> kactive k (slot m start k j) = false) /\
  (forall j, blocked m start k n = S j -> kactive k (slot m start k j) = true).
Proof.
  induction n as [|n [A [B C]]]; cbn [blocked].
  - split; [lia|]. split; [intros; lia|intros; discriminate].
  - change (read m (slot_off start k n) (ksize k)) with (slot m start k n).
    destruct (kactive k (slot m start k n)) eqn:E.
    + split; [lia|]. split; [intros; lia|]. intros j Hj. injection Hj as <-. exact E.
    + split; [lia|]. split; [|exact C]. intros j Hj. destruct (Nat.eq_dec j n) as [->|N]; [exact E|]. apply B. lia.
Qed.

Lemma blocked_ext : forall m m' start k n, (forall i, (i < n)%nat -> slot m start k i = slot m' start k i) ->
  blocked m start k n = blocked m' start k n.
Proof.
  induction n as [|n IH]; intros H; [reflexivity|]. cbn [blocked].
  change (read m (slot_off start k n) (ksize k)) with (slot m start k n).
  change (read m' (slot_off start k n) (ksize k)) with (slot m' start k n).
  rewrite (H n) by lia. rewrite IH; [reflexivity|]. intros; apply H; lia.
Qed.

Lemma defaults_spec : forall start k n i m, length (kdefault k) = ksize k ->
  (forall j, (i <= j < i + n)%nat -> slot (defaults m start k i n) start k j = kdefault k) /\
  (forall a, a < start + bytes_of k i \/ start + bytes_of k (i + n) <= a -> defaults m start k i n a = m a).
Proof.
  intros start k n. induction n as [|n IH]; intros i m L; cbn [defaults].
  - split; [intros; lia|]. auto.
  - destruct (IH (S i) (write m (slot_off start k i) (kdefault k)) L) as [A B]. replace (i + S n)%nat with (S i + n)%nat by lia.
    split.
    + intros j Hj. destruct (Nat.eq_dec i j) as [<-|N]; [|apply A; lia].
      transitivity (slot (write m (slot_off start k i) (kdefault k)) start k i).
      * apply slot_ext. intros x Hx. apply B. rewrite bytes_S. lia.
      * unfold slot. rewrite <- L at 1. apply read_write.
    + intros a Ha. assert (bytes_of k i + Z.of_nat (ksize k) <= bytes_of k (S i + n)) by (apply bytes_lt; lia).
      rewrite B by (rewrite bytes_S; lia). apply write_out. unfold slot_off. rewrite L. lia.
Qed.

(** ** The two move passes *)
Definition ordered (L : list block) : Prop :=
  (forall b, In b L -> 0 <= mn b) /\
  forall l1 b1 l2 b2 l3, L = l1 ++ b1 :: l2 ++ b2 :: l3 ->
    mo b1 + mn b1 <= mo b2 /\ mw b1 + mn b1 <= mw b2.

Lemma ordered_left : forall l x r b, ordered (l ++ x :: r) -> In b l -> mo b + mn b <= mo x /\ mw b + mn b <= mw x.
Proof.
  intros l x r b [_ H] Hb. apply in_split in Hb. destruct Hb as [l1 [l2 ->]]. apply (H l1 b l2 x r).
  rewrite <- !app_assoc. reflexivity.
Qed.
Lemma ordered_right : forall l x r b, ordered (l ++ x :: r) -> In b r -> mo x + mn x <= mo b /\ mw x + mn x <= mw b.
Proof.
  intros l x r b [_ H] Hb. apply in_split in Hb. destruct Hb as [l1 [l2 ->]]. apply (H l x l1 b l2). reflexivity.
Qed.

Definition holds (m m0 : mem) (pos : block -> Z) (b : block) : Prop :=
  forall x, 0 <= x < mn b -> m (pos b + x) = m0 (mo b + x).
Definition low (b : block) : Z := Z.min (mo b) (mw b).

Lemma left_pass : forall m0 l r, ordered (l ++ r) ->
  let m := fold_left move_left l m0 in
  (forall b, In b l -> holds m m0 low b) /\ (forall b, In b r -> holds m m0 mo b).
Proof.
  intros m0 l. induction l as [|x l IH] using rev_ind; intros r HO m.
  - split; [intros b []|]. intros b _ y _. reflexivity.
  - assert (HO' : ordered (l ++ x :: r)) by (rewrite <- app_assoc in HO; exact HO).
    destruct (IH (x :: r) HO') as [A B]. unfold m. rewrite fold_left_app. cbn [fold_left].
    set (m1 := fold_left move_left l m0) in *.
    assert (Nx : 0 <= mn x) by (apply (proj1 HO'); apply in_or_app; right; left; reflexivity).
    split.
    + intros b Hb. apply in_app_or in Hb. destruct Hb as [Hb|[->|[]]].
      * pose proof (ordered_left _ _ _ _ HO' Hb). intros y Hy. rewrite <- (A b Hb y Hy). unfold move_left.
        destruct ((mw x <? mo x) && (0 <? mn x)); [|reflexivity]. apply memmove_out. unfold low. lia.
      * intros y Hy. rewrite <- (B b (or_introl eq_refl) y Hy). unfold move_left.
        destruct (Z.ltb_spec (mw b) (mo b)) as [L|L]; cbn [andb].
        -- rewrite (proj2 (Z.ltb_lt 0 (mn b))) by lia. unfold low. rewrite Z.min_r by lia.
           rewrite memmove_in by lia. f_equal. lia.
        -- unfold low. rewrite Z.min_l by lia. reflexivity.
    + intros b Hb y Hy. rewrite <- (B b (or_intror Hb) y Hy). pose proof (ordered_right _ _ _ _ HO' Hb).
      unfold move_left. destruct (Z.ltb_spec (mw x) (mo x)) as [L|L]; cbn [andb]; [|reflexivity].
      destruct (0 <? mn x); [|reflexivity]. apply memmove_out. lia.
Qed.

Lemma right_pass : forall m0 m1 r l, ordered (l ++ r) ->
  (forall b, In b (l ++ r) -> holds m1 m0 low b) ->
  let m := fold_right (fun b m => move_right m b) m1 r in
  (forall b, In b r -> holds m m0 mw b) /\ (forall b, In b l -> holds m m0 low b).
Proof.
  intros m0 m1 r. induction r as [|x r IH]; intros l HO HL m.
  - split; [intros b []|]. intros b Hb. apply HL. rewrite app_nil_r. exact Hb.
  - assert (HO' : ordered ((l ++ [x]) ++ r)) by (rewrite <- app_assoc; exact HO).
    assert (HL' : forall b, In b ((l ++ [x]) ++ r) -> holds m1 m0 low b) by (rewrite <- app_assoc; exact HL).
    destruct (IH (l ++ [x]) HO' HL') as [A B]. unfold m. cbn [fold_right].
    set (m2 := fold_right (fun b m => move_right m b) m1 r) in *.
    split.
    + intros b [->|Hb] y Hy.
      * assert (Bx : holds m2 m0 low b) by (apply B; apply in_or_app; right; left; reflexivity).
        rewrite <- (Bx y Hy). unfold move_right. destruct (Z.ltb_spec (mo b) (mw b)) as [L|L]; cbn [andb].
        -- rewrite (proj2 (Z.ltb_lt 0 (mn b))) by lia. unfold low. rewrite Z.min_l by lia.
           rewrite memmove_in by lia. f_equal. lia.
        -- unfold low. rewrite Z.min_r by lia. reflexivity.
      * rewrite <- (A b Hb y Hy). pose proof (ordered_right _ _ _ _ HO Hb). unfold move_right.
        destruct ((mo x <? mw x) && (0 <? mn x)); [|reflexivity]. apply memmove_out. lia.
    + intros b Hb y Hy. assert (Bb : holds m2 m0 low b) by (apply B; apply in_or_app; left; exact Hb).
      rewrite <- (Bb y Hy). pose proof (ordered_left _ _ _ _ HO Hb). unfold move_right.
      destruct (Z.ltb_spec (mo x) (mw x)) as [L|L]; cbn [andb]; [|reflexivity].
      destruct (0 <? mn x); [|reflexivity]. apply memmove_out. unfold low. lia.
Qed.

Lemma passes : forall m0 L b, ordered L -> In b L ->
  holds (fold_right (fun b m => move_right m b) (fold_left move_left L m0) L) m0 mw b.
Proof.
  intros m0 L b HO Hb. destruct (left_pass m0 L []) as [A _]; [rewrite app_nil_r; exact HO|].
  destruct (right_pass m0 (fold_left move_left L m0) L [] HO A) as [B _]. apply B. exact Hb.
Qed.

Lemma passes_frame : forall m0 L a, (forall b, In b L -> a < mw b \/ mw b + mn b <= a) ->
  fold_right (fun b m => move_right m b) (fold_left move_left L m0) L a = m0 a.
Proof.
  intros m0 L a H.
  assert (A : forall l m, (forall b, In b l -> a < mw b \/ mw b + mn b <= a) -> fold_left move_left l m a = m a).
  { induction l as [|x l IH]; intros m Hl; [reflexivity|]. cbn [fold_left]. rewrite IH by (intros; apply Hl; right; auto).
    unfold move_left. destruct ((mw x <? mo x) && (0 <? mn x)); [|reflexivity]. apply memmove_out. apply Hl. left; reflexivity. }
  assert (B : forall l m, (forall b, In b l -> a < mw b \/ mw b + mn b <= a) -> fold_right (fun b m => move_right m b) m l a = m a).
  { induction l as [|x l IH]; intros m Hl; [reflexivity|]. cbn [fold_right]. unfold move_right at 1.
    destruct ((mo x <? mw x) && (0 <? mn x)); [|apply IH; intros; apply Hl; right; auto].
    rewrite memmove_out by (apply Hl; left; reflexivity). apply IH. intros; apply Hl; right; auto. }
  rewrite B by exact H. apply A. exact H.
Qed.

(** ordering of a four element list from the consecutive inequalities *)
Lemma ordered4 : forall a b c d, 0 <= mn a -> 0 <= mn b -> 0 <= mn c -> 0 <= mn d ->
  mo a + mn a <= mo b -> mw a + mn a <= mw b -> mo b + mn b <= mo c -> mw b + mn b <= mw c ->
  mo c + mn c <= mo d -> mw c + mn c <= mw d -> ordered [a; b; c; d].
Proof.
  intros a b c d Na Nb Nc Nd H1 H2 H3 H4 H5 H6. split.
  - intros x [<-|[<-|[<-|[<-|[]]]]]; assumption.
  - intros l1 b1 l2 b2 l3 E.
    destruct l1 as [|x1 [|x2 [|x3 [|x4 [|x5 l1]]]]]; cbn [app] in E; injection E; intros; subst;
      try discriminate; destruct l2 as [|y1 [|y2 [|y3 l2]]]; cbn [app] in *;
      repeat match goal with H : _ :: _ = _ :: _ |- _ => injection H; clear H; intros; subst end;
      try discriminate; try lia;
      repeat match goal with H : _ = _ ++ _ |- _ => apply (f_equal (@length _)) in H; cbn [length] in H; rewrite app_length in H; cbn [length] in H end; try lia.
Qed.
