(** The event queue ring buffer.   Models src/state/orderbook/queue.rs:24-128.
    The element type is abstract; [MAX_NUM_EVENTS] is the length of [q_buf]. *)
From Coq Require Import List ZArith Lia Bool Arith.
From Verif Require Import OrderTree.
Import ListNotations.
Open Scope nat_scope.

(** queue.rs:24-29, 122-127 *)
Record queue (A : Type) := mkQ { q_head : nat; q_count : nat; q_seq : Z; q_buf : list A }.
Arguments mkQ {A}. Arguments q_head {A}. Arguments q_count {A}.
Arguments q_seq {A}. Arguments q_buf {A}.

Section Q.
Context {A : Type}.
Implicit Types q : queue A.

(** queue.rs:36-46 *)
Definition q_empty q : bool := Nat.eqb (q_count q) 0.
Definition q_full q : bool := Nat.eqb (q_count q) (length (q_buf q)).

(** queue.rs:48-60; outer [None]: panic (u64 overflow of the sequence number, or
    an empty buffer), [inr v]: Err(value) *)
Definition q_push q (v : A) : option (queue A + A) :=
  if q_full q then Some (inr v)
  else
    let slot := (q_head q + q_count q) mod length (q_buf q) in
    if (q_seq q + 1 <=? u64_max)%Z
    then Some (inl (mkQ (q_head q) (q_count q + 1) (q_seq q + 1)%Z (upd (q_buf q) slot v)))
    else None.

(** queue.rs:62-67 [peek_front]; outer None: out of bounds *)
Definition q_peek q : option (option A) :=
  if q_empty q then Some None
  else match nth_error (q_buf q) (q_head q) with
       | Some v => Some (Some v)
       | None => None
       end.

(** queue.rs:76-88; [inr tt]: Err *)
Definition q_pop q : option ((A * queue A) + unit) :=
  if q_empty q then Some (inr tt)
  else match nth_error (q_buf q) (q_head q) with
       | None => None
       | Some v => Some (inl (v, mkQ ((q_head q + 1) mod length (q_buf q)) (q_count q - 1)
                                  (q_seq q) (q_buf q)))
       end.

(** queue.rs:90-96; outer None: u64 underflow *)
Definition q_revert q (desired : nat) : option (queue A + unit) :=
  if Nat.leb desired (q_count q) then
    let d := Z.of_nat (q_count q - desired) in
    if (d <=? q_seq q)%Z then Some (inl (mkQ (q_head q) desired (q_seq q - d)%Z (q_buf q)))
    else None
  else Some (inr tt).

(** queue.rs:98-124 [iter] and its [next], from [index] on *)
Fixpoint q_iter_from q (fuel index : nat) : option (list A) :=
  match fuel with
  | O => None
  | S f =>
      if Nat.eqb index (q_count q) then Some []
      else match nth_error (q_buf q) ((q_head q + index) mod length (q_buf q)) with
           | None => None
           | Some v => match q_iter_from q f (index + 1) with
                       | None => None
                       | Some vs => Some (v :: vs)
                       end
           end
  end.
Definition q_iter q : option (list A) := q_iter_from q (S (q_count q)) 0.
End Q.

(** operations and answers *)
Inductive qop (A : Type) := QPush (v : A) | QPop | QPeek | QRevert (n : nat).
Inductive qout (A : Type) := QPushed | QFull (v : A) | QPopped (v : option A) | QPeeked (v : option A)
  | QReverted (ok : bool).
Arguments QPush {A}. Arguments QPop {A}. Arguments QPeek {A}. Arguments QRevert {A}.
Arguments QPushed {A}. Arguments QFull {A}. Arguments QPopped {A}. Arguments QPeeked {A}.
Arguments QReverted {A}.

Definition q_step {A} (q : queue A) (o : qop A) : option (queue A * qout A) :=
  match o with
  | QPush v => match q_push q v with
               | None => None
               | Some (inl q') => Some (q', QPushed)
               | Some (inr v') => Some (q, QFull v')
               end
  | QPop => match q_pop q with
            | None => None
            | Some (inl (v, q')) => Some (q', QPopped (Some v))
            | Some (inr _) => Some (q, QPopped None)
            end
  | QPeek => match q_peek q with None => None | Some v => Some (q, QPeeked v) end
  | QRevert n => match q_revert q n with
                 | None => None
                 | Some (inl q') => Some (q', QReverted true)
                 | Some (inr _) => Some (q, QReverted false)
                 end
  end.
Fixpoint q_run {A} (q : queue A) (os : list (qop A)) : option (queue A * list (qout A)) :=
  match os with
  | [] => Some (q, [])
  | o :: os' => match q_step q o with
                | None => None
                | Some (q1, x) => match q_run q1 os' with
                                  | None => None
                                  | Some (q2, xs) => Some (q2, x :: xs)
                                  end
                end
  end.

(** ** Specification: a list of pending events and a counter *)
Definition fifo_step {A} (cap : nat) (s : list A * Z) (o : qop A) : (list A * Z) * qout A :=
  let '(L, n) := s in
  match o with
  | QPush v => if Nat.ltb (length L) cap then ((L ++ [v], (n + 1)%Z), QPushed) else ((L, n), QFull v)
  | QPop => match L with
            | [] => ((L, n), QPopped None)
            | v :: L' => ((L', n), QPopped (Some v))
            end
  | QPeek => (s, QPeeked (hd_error L))
  | QRevert d => if Nat.leb d (length L)
                 then ((firstn d L, (n - Z.of_nat (length L - d))%Z), QReverted true)
                 else (s, QReverted false)
  end.
Fixpoint fifo_run {A} (cap : nat) (s : list A * Z) (os : list (qop A)) : (list A * Z) * list (qout A) :=
  match os with
  | [] => (s, [])
  | o :: os' => let '(s1, x) := fifo_step cap s o in
                let '(s2, xs) := fifo_run cap s1 os' in (s2, x :: xs)
  end.

(** ** Refinement *)
Section P.
Context {A : Type}.
Implicit Types q : queue A.

Definition qrep (cap : nat) q (s : list A * Z) : Prop :=
  length (q_buf q) = cap /\ q_head q < cap /\ q_count q = length (fst s) /\ q_count q <= cap /\
  q_seq q = snd s /\ (Z.of_nat (q_count q) <= q_seq q)%Z /\
  forall i, i < q_count q -> nth_error (q_buf q) ((q_head q + i) mod cap) = nth_error (fst s) i.

Lemma upd_length (l : list A) n x : length (upd l n x) = length l.
Proof. revert n; induction l as [|h t IH]; intros [|n]; cbn; auto. Qed.
Lemma upd_same (l : list A) n x : n < length l -> nth_error (upd l n x) n = Some x.
Proof. revert n; induction l as [|h t IH]; intros [|n] H; cbn in *; try lia; auto. apply IH; lia. Qed.
Lemma upd_other (l : list A) n m x : n <> m -> nth_error (upd l n x) m = nth_error l m.
Proof. revert n m; induction l as [|h t IH]; intros [|n] [|m] H; cbn; auto; try lia. Qed.

Lemma mod_inj cap h i j : i < cap -> j < cap -> (h + i) mod cap = (h + j) mod cap -> i = j.
Proof.
  intros Hi Hj H.
  pose proof (Nat.div_mod (h + i) cap ltac:(lia)) as E1.
  pose proof (Nat.div_mod (h + j) cap ltac:(lia)) as E2.
  rewrite H in E1.
  assert ((h + i) / cap = (h + j) / cap \/ (h + i) / cap < (h + j) / cap \/ (h + j) / cap < (h + i) / cap) as [E|[E|E]] by lia.
  - rewrite E in E1. lia.
  - assert (cap * ((h + i) / cap) + cap <= cap * ((h + j) / cap)).
    { replace (cap * ((h + i) / cap) + cap) with (cap * ((h + i) / cap + 1)) by lia.
      apply Nat.mul_le_mono_l. lia. } lia.
  - assert (cap * ((h + j) / cap) + cap <= cap * ((h + i) / cap)).
    { replace (cap * ((h + j) / cap) + cap) with (cap * ((h + j) / cap + 1)) by lia.
      apply Nat.mul_le_mono_l. lia. } lia.
Qed.

Lemma q_step_ok cap q s o : 0 < cap -> qrep cap q s -> (snd s < u64_max)%Z ->
  exists q', q_step q o = Some (q', snd (fifo_step cap s o)) /\ qrep cap q' (fst (fifo_step cap s o)).
Proof.
  intros Hcap (Hb & Hh & Hc & Hle & Hs & Hn & Hnth) Hmax. destruct s as [L n]. cbn [fst snd] in *.
  destruct o as [v| | |d]; cbn [q_step fifo_step fst snd].
  - unfold q_push, q_full. rewrite Hb.
    destruct (Nat.eqb_spec (q_count q) cap) as [E|E].
    + destruct (Nat.ltb_spec (length L) cap); [lia|]. cbn [fst snd].
      eexists. split; [reflexivity|]. repeat split; cbn [fst snd]; assumption || lia.
    + destruct (Nat.ltb_spec (length L) cap); [|lia].
      destruct (Z.leb_spec (q_seq q + 1) u64_max); [|lia]. cbn [fst snd].
      eexists. split; [reflexivity|]. unfold qrep. cbn [q_head q_count q_seq q_buf fst snd].
      rewrite upd_length, app_length. cbn [length].
      refine (conj Hb (conj Hh (conj _ (conj _ (conj _ (conj _ _)))))); try lia.
      intros i Hi. destruct (Nat.eq_dec i (q_count q)) as [->|Hne].
      * rewrite upd_same.
        -- rewrite Hc, nth_error_app2, Nat.sub_diag by lia. reflexivity.
        -- rewrite Hb. apply Nat.mod_upper_bound. lia.
      * rewrite upd_other.
        -- rewrite (Hnth i) by lia. rewrite nth_error_app1 by lia. reflexivity.
        -- intros Heq. apply Hne. symmetry. apply (mod_inj cap (q_head q)); lia.
  - unfold q_pop, q_empty. destruct (Nat.eqb_spec (q_count q) 0) as [E|E].
    + destruct L; [|cbn in *; lia]. cbn [fst snd]. eexists. split; [reflexivity|].
      repeat split; cbn [fst snd]; assumption || lia.
    + pose proof (Hnth 0 ltac:(lia)) as H0. rewrite Nat.add_0_r, Nat.mod_small in H0 by lia. rewrite H0.
      destruct L as [|v L']; [cbn in *; lia|]. cbn [nth_error fst snd].
      eexists. split; [reflexivity|]. unfold qrep. cbn [q_head q_count q_seq q_buf fst snd].
      cbn [length] in Hc. rewrite Hb.
      refine (conj eq_refl (conj _ (conj _ (conj _ (conj _ (conj _ _)))))); try lia.
      { apply Nat.mod_upper_bound. lia. }
      intros i Hi. rewrite Nat.add_mod_idemp_l by lia.
      replace (q_head q + 1 + i) with (q_head q + S i) by lia.
      rewrite (Hnth (S i)) by lia. reflexivity.
  - unfold q_peek, q_empty. destruct (Nat.eqb_spec (q_count q) 0) as [E|E].
    + destruct L; [|cbn in *; lia]. eexists. split; [reflexivity|].
      repeat split; cbn [fst snd]; assumption || lia.
    + pose proof (Hnth 0 ltac:(lia)) as H0. rewrite Nat.add_0_r, Nat.mod_small in H0 by lia. rewrite H0.
      destruct L as [|v L']; [cbn in *; lia|]. cbn [nth_error hd_error].
      eexists. split; [reflexivity|]. repeat split; cbn [fst snd]; assumption || lia.
  - unfold q_revert. rewrite Hc. destruct (Nat.leb_spec d (length L)).
    + destruct (Z.leb_spec (Z.of_nat (length L - d)) (q_seq q)); [|lia]. cbn [fst snd].
      eexists. split; [reflexivity|]. unfold qrep. cbn [q_head q_count q_seq q_buf fst snd].
      rewrite firstn_length_le by lia.
      refine (conj Hb (conj Hh (conj eq_refl (conj _ (conj _ (conj _ _)))))); try lia.
      intros i Hi. rewrite (Hnth i) by lia. clear - Hi.
      revert d i Hi; induction L as [|x L IH]; intros [|d] [|i] Hi; cbn; try lia; auto.
      apply IH; lia.
    + eexists. split; [reflexivity|]. repeat split; cbn [fst snd]; assumption || lia.
Qed.

Lemma fifo_seq_mono cap (s : list A * Z) o : (snd (fst (fifo_step cap s o)) <= snd s + 1)%Z.
Proof.
  destruct s as [L n], o; cbn [fifo_step fst snd].
  - destruct (Nat.ltb (length L) cap); cbn [fst snd]; lia.
  - destruct L; cbn [fst snd]; lia.
  - lia.
  - destruct (Nat.leb n0 (length L)); cbn [fst snd]; lia.
Qed.

Lemma q_run_ok cap os : 0 < cap -> forall q s, qrep cap q s ->
  (snd s + Z.of_nat (length os) <= u64_max)%Z ->
  exists q', q_run q os = Some (q', snd (fifo_run cap s os)) /\ qrep cap q' (fst (fifo_run cap s os)).
Proof.
  intros Hcap. induction os as [|o os IH]; intros q s Hr Hlim; cbn [q_run fifo_run].
  - exists q. split; [reflexivity|exact Hr].
  - cbn [length] in Hlim. destruct (q_step_ok cap q s o Hcap Hr ltac:(lia)) as (q1 & E1 & R1).
    pose proof (fifo_seq_mono cap s o) as Hm.
    rewrite E1. destruct (fifo_step cap s o) as [s1 x]. cbn [fst snd] in *.
    destruct (IH q1 s1 R1 ltac:(lia)) as (q2 & E2 & R2). rewrite E2.
    destruct (fifo_run cap s1 os) as [s2 xs]. cbn [fst snd] in *. exists q2. split; [reflexivity|exact R2].
Qed.

Lemma q_iter_from_ok cap q s : qrep cap q s -> forall k index,
  index + k = q_count q -> q_iter_from q (S k) index = Some (skipn index (fst s)).
Proof.
  intros (Hb & Hh & Hc & Hle & Hs & Hn & Hnth). induction k as [|k IH]; intros index E.
  - cbn. destruct (Nat.eqb_spec index (q_count q)); [|lia]. rewrite skipn_all2 by lia. reflexivity.
  - remember (S k) as k1 eqn:Ek. cbn [q_iter_from]. subst k1. destruct (Nat.eqb_spec index (q_count q)); [lia|].
    rewrite Hb, (Hnth index) by lia.
    destruct (nth_error (fst s) index) as [v|] eqn:Ev.
    + rewrite (IH (index + 1)) by lia.
      f_equal. clear - Ev. rewrite Nat.add_1_r. destruct s as [L z]. cbn [fst] in *. revert index Ev.
      induction L as [|x L IH]; intros [|i] Ev; cbn in *; try discriminate.
      * injection Ev as <-. reflexivity.
      * apply IH. exact Ev.
    + apply nth_error_None in Ev. lia.
Qed.
Lemma q_iter_ok cap q s : qrep cap q s -> q_iter q = Some (fst s).
Proof.
  intros H. unfold q_iter. rewrite (q_iter_from_ok cap q s H (q_count q) 0) by lia. reflexivity.
Qed.
End P.
