(** C01-C05: the order tree.  Only property statements, their one-line proofs,
    and concrete runs showing that the hypotheses are met. *)
From Coq Require Import List ZArith Lia Bool Permutation Sorted.
From Verif Require Import OrderTree OrderTreeSpec BookArena KeyBits OrderTreeRep OrderTreeOps2
  BookArenaProofs BookArenaFacts.
Import ListNotations.
Open Scope Z_scope.

(** C01.  Every history of operations on a fresh book side runs without panic,
    answers like the abstract book, and ends with exactly the abstract book's
    orders in each component. *)
Theorem C01_refines_ordered_map :
  forall (bids : bool) (cap : nat) (ops : list op),
    Forall op_ok ops ->
    exists s outs b,
      bs_run bids (bs_init cap) ops = Some (s, outs) /\
      spec_run bids cap ([], []) ops outs b /\
      forall c, exists L, bs_orders bids s c = Some L /\ Permutation L (get c b).
Proof.
  intros bids cap ops Hok.
  destruct (bs_run_ok bids cap ops _ _ (bsrep_init cap) Hok) as (s & outs & b & H1 & H2 & H3).
  exists s, outs, b. split; [exact H1|]. split; [exact H2|]. intros c.
  destruct (bs_orders_ok bids cap s b c H3) as (L & HL & HP & _). exists L. exact (conj HL HP).
Qed.
Print Assumptions C01_refines_ordered_map.

(** C01, one step: what insertion and removal do to the iterated orders of a
    reachable book side. *)
Theorem C01_insert :
  forall bids cap s c l, reachable bids cap s -> leaf_ok l ->
  exists s' x, bs_step bids s (OInsert c l) = Some (s', x) /\
  match x with
  | OutInserted => removed_exactly bids s' s c l
  | OutReplaced old => l_key old = l_key l /\
      (exists A B, bs_orders bids s c = Some (A ++ old :: B) /\ bs_orders bids s' c = Some (A ++ l :: B)) /\
      bs_orders bids s' (negb c) = bs_orders bids s (negb c)
  | OutFull => unchanged bids s s' /\ is_full (bs_arena s) = true
  | _ => False
  end.
Proof. exact insert_fact. Qed.
Print Assumptions C01_insert.

Theorem C01_remove :
  forall bids cap s c k, reachable bids cap s ->
  exists s' x, bs_step bids s (ORemove c k) = Some (s', OutRemoved x) /\
    match x with
    | Some l => l_key l = k /\ removed_exactly bids s s' c l
    | None => (forall L, bs_orders bids s c = Some L -> absent k L) /\ unchanged bids s s'
    end.
Proof. exact remove_fact. Qed.
Print Assumptions C01_remove.

(** C02.  Iteration is strictly sorted by priority (hence without repetition);
    its first and last elements are the max/min leaf queries. *)
Theorem C02_iteration_sorted :
  forall bids cap s c, reachable bids cap s ->
  exists L, bs_orders bids s c = Some L /\
    StronglySorted (fun x y => if bids then l_key y < l_key x else l_key x < l_key y) L.
Proof.
  intros bids cap s c Hr. destruct (reachable_rep bids cap s Hr) as [b Hb].
  destruct (bs_orders_ok bids cap s b c Hb) as (L & H1 & _ & H3). exists L. exact (conj H1 H3).
Qed.
Print Assumptions C02_iteration_sorted.

Theorem C02_min_max :
  forall bids cap s c (m : bool), reachable bids cap s ->
  exists L q, iter_all false (bs_arena s) (get c (bs_roots s)) = Some L /\
    leaf_min_max (bs_arena s) (get c (bs_roots s)) m = Some q /\
    q = nth_error (if m then rev L else L) 0.
Proof.
  intros bids cap s c m Hr. destruct (reachable_rep bids cap s Hr) as [b Hb].
  destruct (bsrep_comp cap s b c Hb) as (_ & o & oo & fl & Ht & _).
  exists (ohlvs o). eexists. rewrite (iter_all_ok false _ _ _ _ _ Ht), (leaf_min_max_ok _ _ _ _ _ m Ht).
  split; [reflexivity|]. split; [reflexivity|]. destruct m; reflexivity.
Qed.
Print Assumptions C02_min_max.

(** C03.  Slots never leak; a side that is not full accepts any new order. *)
Theorem C03_no_slot_leak :
  forall bids cap s, reachable bids cap s ->
  exists F P, bs_orders bids s false = Some F /\ bs_orders bids s true = Some P /\
    leaf_count (fst (bs_roots s)) = length F /\ leaf_count (snd (bs_roots s)) = length P /\
    (free_len (bs_arena s) + slots (length F) + slots (length P) = bump (bs_arena s) /\
     bump (bs_arena s) <= cap)%nat.
Proof.
  intros bids cap s Hr. destruct (reachable_rep bids cap s Hr) as [b Hb].
  destruct (bs_orders_ok bids cap s b false Hb) as (F & HF & PF & _).
  destruct (bs_orders_ok bids cap s b true Hb) as (P & HP & PP & _).
  destruct (slots_partition cap s b Hb) as (H1 & H2 & H3 & H4).
  apply Permutation_length in PF, PP. cbn [get] in PF, PP.
  exists F, P. rewrite PF, PP. repeat split; assumption.
Qed.
Print Assumptions C03_no_slot_leak.

Theorem C03_not_full_insert_succeeds :
  forall bids cap s c l, reachable bids cap s -> leaf_ok l ->
  is_full (bs_arena s) = false ->
  (forall L, bs_orders bids s c = Some L -> absent (l_key l) L) ->
  exists s', bs_step bids s (OInsert c l) = Some (s', OutInserted) /\
    removed_exactly bids s' s c l.
Proof. exact insert_not_full. Qed.
Print Assumptions C03_not_full_insert_succeeds.

(** C04.  Expired order eviction. *)
Theorem C04_remove_one_expired :
  forall bids cap s c now, reachable bids cap s ->
  exists s' x, bs_step bids s (ORemoveExpired c now) = Some (s', OutRemoved x) /\
    forall L, bs_orders bids s c = Some L ->
    match x with
    | Some l => expires_at l < now /\ (forall l', In l' L -> expires_at l <= expires_at l') /\
                removed_exactly bids s s' c l
    | None => (forall l, In l L -> now <= expires_at l) /\ unchanged bids s s'
    end.
Proof. exact expired_fact. Qed.
Print Assumptions C04_remove_one_expired.

(** C05 (per component; the combined version is in PropBookSide). *)
Theorem C05_remove_worst :
  forall bids cap s c, reachable bids cap s ->
  exists s' x, bs_step bids s (ORemoveWorst c) = Some (s', OutRemoved x) /\
    match x with
    | Some l => exists L, bs_orders bids s c = Some (L ++ [l]) /\ bs_orders bids s' c = Some L /\
                  bs_orders bids s' (negb c) = bs_orders bids s (negb c)
    | None => bs_orders bids s c = Some [] /\ unchanged bids s s'
    end.
Proof. exact worst_fact. Qed.
Print Assumptions C05_remove_worst.

(** ** The hypotheses are met by non-trivial histories *)
Definition ex_leaf (k tif : Z) : leaf := mkLeaf 0 0 tif k 7 5 1000 (-1) 0.
Definition ex_ops : list op :=
  [ OInsert false (ex_leaf 5 10); OInsert true (ex_leaf 1 20); OInsert false (ex_leaf 12 3);
    OInsert false (ex_leaf 4 0); OInsert true (ex_leaf (2^127) 7); ORemove false 5;
    OInsert false (ex_leaf 13 0); ORemoveExpired false 1004; OSetQty true 1 2;
    ORemoveWorst true; OInsert false (ex_leaf 6 1) ].

Example ex_ops_ok : Forall op_ok ex_ops.
Proof.
  unfold ex_ops. repeat (apply Forall_cons; [cbn; unfold leaf_ok, key_ok, u64_max; cbn; lia || exact I|]).
  apply Forall_nil.
Qed.

(** the run really ends in a state with orders in both components, some slots freed *)
Example ex_run_asks :
  exists s outs, bs_run false (bs_init 16) ex_ops = Some (s, outs) /\
    bs_orders false s false = Some [ex_leaf 4 0; ex_leaf 6 1; ex_leaf 13 0] /\
    bs_orders false s true = Some [mkLeaf 0 0 20 1 7 2 1000 (-1) 0] /\
    free_len (bs_arena s) = 2%nat /\ is_full (bs_arena s) = false.
Proof. eexists _, _. split; [vm_compute; reflexivity|]. vm_compute. repeat split; reflexivity. Qed.

Example ex_reachable : exists s, reachable false 16 s /\ is_full (bs_arena s) = false.
Proof.
  destruct ex_run_asks as (s & outs & H & _ & _ & _ & Hf). exists s.
  split; [exists ex_ops, outs; exact (conj ex_ops_ok H)|exact Hf].
Qed.

(** with 4 slots the same history runs into the capacity error *)
Example ex_run_full :
  exists s outs, bs_run false (bs_init 4) ex_ops = Some (s, outs) /\ In OutFull outs.
Proof.
  eexists _, _. split; [vm_compute; reflexivity|]. cbn. do 3 right. left. reflexivity.
Qed.
