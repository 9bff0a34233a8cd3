(** Specification of one side of the order book, independent of trees and arenas.

    A book side holds two finite sets of orders (component [false] = fixed price,
    [true] = oracle pegged).  Orders of one component have distinct keys. *)
From Coq Require Import List ZArith Bool.
From Verif Require Import OrderTree.
Import ListNotations.
Open Scope Z_scope.

Definition comp := bool.
Definition book := (list leaf * list leaf)%type.
Definition get {A} (c : comp) (b : A * A) : A := if c then snd b else fst b.
Definition set {A} (c : comp) (x : A) (b : A * A) : A * A :=
  if c then (fst b, x) else (x, snd b).

Inductive op :=
| OInsert (c : comp) (l : leaf)
| ORemove (c : comp) (k : Z)
| ORemoveWorst (c : comp)
| ORemoveExpired (c : comp) (now : Z)
| OSetQty (c : comp) (k q : Z).

Inductive out :=
| OutInserted            (* a new order was added *)
| OutReplaced (l : leaf) (* an order with the same key was replaced *)
| OutFull                (* error, nothing changed *)
| OutRemoved (l : option leaf)
| OutUnit.

(** arena slots needed for [n] orders *)
Definition slots (n : nat) : nat := match n with O => 0 | S m => (2 * m + 1)%nat end.
Definition slots_needed (n : nat) : nat := match n with O => 1 | S _ => 2 end%nat.
Definition room (cap : nat) (b : book) (c : comp) : Prop :=
  (slots (length (fst b)) + slots (length (snd b)) + slots_needed (length (get c b)) <= cap)%nat.

Definition without (k : Z) (L : list leaf) : list leaf :=
  filter (fun l => negb (l_key l =? k)) L.
Definition set_qty (k q : Z) (L : list leaf) : list leaf :=
  map (fun l => if l_key l =? k
                then mkLeaf (l_owner_slot l) (l_order_type l) (l_tif l) (l_key l) (l_owner l)
                       q (l_timestamp l) (l_peg_limit l) (l_client_id l)
                else l) L.
(** when an order expires; 0 means never *)
Definition expires_at (l : leaf) : Z :=
  if l_tif l =? 0 then u64_max else l_timestamp l + l_tif l.
Definition absent (k : Z) (L : list leaf) : Prop := forall l, In l L -> l_key l <> k.

(** [worse bids x y]: [x] has strictly lower priority than [y] *)
Definition worse (bids : bool) (x y : leaf) : Prop :=
  if bids then l_key x < l_key y else l_key y < l_key x.

Inductive spec_step (bids : bool) (cap : nat) (b : book) : op -> out -> book -> Prop :=
| S_insert c l : absent (l_key l) (get c b) -> room cap b c ->
    spec_step bids cap b (OInsert c l) OutInserted (set c (l :: get c b) b)
| S_replace c l old : In old (get c b) -> l_key old = l_key l ->
    spec_step bids cap b (OInsert c l) (OutReplaced old)
      (set c (l :: without (l_key l) (get c b)) b)
| S_full c l : absent (l_key l) (get c b) -> ~ room cap b c ->
    spec_step bids cap b (OInsert c l) OutFull b
| S_remove c k l : In l (get c b) -> l_key l = k ->
    spec_step bids cap b (ORemove c k) (OutRemoved (Some l)) (set c (without k (get c b)) b)
| S_remove_absent c k : absent k (get c b) ->
    spec_step bids cap b (ORemove c k) (OutRemoved None) b
| S_worst c l : In l (get c b) ->
    (forall l', In l' (get c b) -> l' <> l -> worse bids l l') ->
    spec_step bids cap b (ORemoveWorst c) (OutRemoved (Some l))
      (set c (without (l_key l) (get c b)) b)
| S_worst_empty c : get c b = [] ->
    spec_step bids cap b (ORemoveWorst c) (OutRemoved None) b
| S_expired c now l : In l (get c b) -> expires_at l < now ->
    (forall l', In l' (get c b) -> expires_at l <= expires_at l') ->
    spec_step bids cap b (ORemoveExpired c now) (OutRemoved (Some l))
      (set c (without (l_key l) (get c b)) b)
| S_none_expired c now : (forall l, In l (get c b) -> now <= expires_at l) ->
    spec_step bids cap b (ORemoveExpired c now) (OutRemoved None) b
| S_setqty c k q : (exists l, In l (get c b) /\ l_key l = k) ->
    spec_step bids cap b (OSetQty c k q) OutUnit (set c (set_qty k q (get c b)) b)
| S_setqty_absent c k q : absent k (get c b) ->
    spec_step bids cap b (OSetQty c k q) OutUnit b.

Inductive spec_run (bids : bool) (cap : nat) : book -> list op -> list out -> book -> Prop :=
| R_nil b : spec_run bids cap b [] [] b
| R_cons b o os x xs b1 b2 : spec_step bids cap b o x b1 -> spec_run bids cap b1 os xs b2 ->
    spec_run bids cap b (o :: os) (x :: xs) b2.
