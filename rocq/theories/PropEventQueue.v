(** C08: the event queue is a bounded FIFO. *)
From Coq Require Import List ZArith Lia Bool Arith.
From Verif Require Import OrderTree EventQueue.
Import ListNotations.

(** Starting from an empty queue with any buffer, head position and sequence
    number, every sequence of pushes, pops, peeks and reverts runs without
    panic, gives the answers of the FIFO list, and iteration then lists the
    pending events oldest first.  (The sequence number is a u64: it would take
    2^64 pushes to overflow.) *)
Theorem C08_fifo : forall (A : Type) (buf : list A) (h : nat) (n : Z) (os : list (qop A)),
  (h < length buf)%nat -> (0 <= n)%Z -> (n + Z.of_nat (length os) <= u64_max)%Z ->
  let spec := fifo_run (length buf) ([], n) os in
  exists q, q_run (mkQ h 0 n buf) os = Some (q, snd spec) /\
    q_iter q = Some (fst (fst spec)) /\
    q_count q = length (fst (fst spec)) /\ q_seq q = snd (fst spec).
Proof.
  intros A buf h n os Hh Hn Hlim spec.
  assert (R0 : qrep (length buf) (mkQ h 0 n buf) ([], n)).
  { repeat split; cbn; try lia. }
  destruct (q_run_ok (length buf) os ltac:(lia) _ _ R0 Hlim) as (q & E & R).
  exists q. split; [exact E|]. split; [exact (q_iter_ok _ _ _ R)|].
  destruct R as (_ & _ & H1 & _ & H2 & _). exact (conj H1 H2).
Qed.
Print Assumptions C08_fifo.

(** FIFO laws of the specification, spelled out: what is pushed without reverts is
    popped exactly once and in order. *)
Theorem C08_pop_order : forall (A : Type) (buf : list A) (h : nat) (n : Z) (vs : list A),
  (h < length buf)%nat -> (0 <= n)%Z -> (length vs <= length buf)%nat ->
  (n + 2 * Z.of_nat (length vs) + 1 <= u64_max)%Z ->
  exists q, q_run (mkQ h 0 n buf) (map QPush vs ++ repeat QPop (length vs) ++ [QPop]) =
    Some (q, repeat QPushed (length vs) ++ map (fun v => QPopped (Some v)) vs ++ [QPopped None]) /\
    q_seq q = (n + Z.of_nat (length vs))%Z.
Proof.
  intros A buf h n vs Hh Hn Hl Hlim.
  destruct (C08_fifo A buf h n (map QPush vs ++ repeat QPop (length vs) ++ [QPop]) Hh Hn) as (q & E & _ & _ & Hs).
  { rewrite !app_length, map_length, repeat_length. cbn [length]. lia. }
  exists q.
  assert (Hrun : forall (s : list A * Z) os1 os2, fifo_run (length buf) s (os1 ++ os2) =
     (fst (fifo_run (length buf) (fst (fifo_run (length buf) s os1)) os2),
      snd (fifo_run (length buf) s os1) ++ snd (fifo_run (length buf) (fst (fifo_run (length buf) s os1)) os2))).
  { intros s os1 os2. revert s. induction os1 as [|o os1 IH]; intros s; cbn [app fifo_run].
    - cbn [fst snd app]. destruct (fifo_run (length buf) s os2); reflexivity.
    - destruct (fifo_step (length buf) s o) as [s1 x]. rewrite IH.
      destruct (fifo_run (length buf) s1 os1) as [s2 xs]. cbn [fst snd].
      destruct (fifo_run (length buf) s2 os2); reflexivity. }
  assert (Hpush : forall (vs L : list A) m, (length L + length vs <= length buf)%nat ->
     fifo_run (length buf) (L, m) (map QPush vs) = ((L ++ vs, (m + Z.of_nat (length vs))%Z), repeat QPushed (length vs))).
  { clear. induction vs as [|v vs IH]; intros L m Hlen; cbn [map fifo_run length repeat] in *.
    - rewrite app_nil_r, Z.add_0_r. reflexivity.
    - cbn [fifo_step]. destruct (Nat.ltb_spec (length L) (length buf)); [|lia].
      rewrite IH by (rewrite app_length; cbn; lia). rewrite <- app_assoc. cbn [app].
      f_equal. f_equal. lia. }
  assert (Hpop : forall (vs : list A) m, fifo_run (length buf) (vs, m) (repeat QPop (length vs) ++ [QPop]) =
     (([], m), map (fun v => QPopped (Some v)) vs ++ [QPopped None])).
  { clear. induction vs as [|v vs IH]; intros m; cbn [repeat app fifo_run length fifo_step map].
    - reflexivity.
    - rewrite IH. reflexivity. }
  rewrite Hrun in E, Hs. rewrite (Hpush vs [] n) in E, Hs by (cbn; lia). cbn [fst snd app] in *.
  rewrite Hpop in E, Hs. cbn [fst snd] in *. split; [exact E|exact Hs].
Qed.
Print Assumptions C08_pop_order.

(** wrap-around case: capacity 3, starting at the last slot *)
Example C08_example :
  exists q, q_run (mkQ 2 0 7%Z [0; 0; 0])
     [QPush 1; QPush 2; QPop; QPush 3; QPush 4; QPush 5; QPeek; QRevert 2; QPush 6; QRevert 9]
   = Some (q, [QPushed; QPushed; QPopped (Some 1); QPushed; QPushed; QFull 5; QPeeked (Some 2);
               QReverted true; QPushed; QReverted false]) /\
   q_iter q = Some [2; 3; 6] /\ q_seq q = 11%Z.
Proof. eexists. split; [vm_compute; reflexivity|]. split; reflexivity. Qed.
