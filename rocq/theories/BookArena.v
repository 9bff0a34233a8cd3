(** One book side: an arena shared by the fixed and the oracle pegged tree, and
    histories of operations on it.   Models src/state/orderbook/bookside.rs *)
From Coq Require Import List ZArith Lia Bool Arith.
From Verif Require Import OrderTree OrderTreeSpec.
Import ListNotations.
Open Scope Z_scope.

(** bookside.rs:32-37 [BookSide]: roots[2] and nodes *)
Record bookside := mkBS { bs_roots : (root * root)%type; bs_arena : arena }.

(** A zero-initialised account with [cap] node slots (1024 in the code);
    the order tree type is passed as [bids]. *)
Definition bs_init (cap : nat) : bookside :=
  mkBS (mkRoot 0 0, mkRoot 0 0) (mkArena 0 0 0 (repeat NUninit cap)).

(** bookside.rs:82-89 [insert_leaf], :131-143 [remove_by_key];
    ordertree.rs remove_worst / remove_one_expired on one component;
    quantity changes through the handle obtained from iteration (book.rs:206-216,
    291-304): [OSetQty] looks the handle up in the iteration. *)
Definition bs_step (bids : bool) (s : bookside) (o : op) : option (bookside * out) :=
  match o with
  | OInsert c l =>
      match insert_leaf (bs_arena s) (get c (bs_roots s)) l with
      | None => None
      | Some (a, r, rs) =>
          Some (mkBS (set c r (bs_roots s)) a,
                match rs with
                | inl (_, None) => OutInserted
                | inl (_, Some old) => OutReplaced old
                | inr _ => OutFull
                end)
      end
  | ORemove c k =>
      match remove_by_key (bs_arena s) (get c (bs_roots s)) k with
      | None => None
      | Some (a, r, l) => Some (mkBS (set c r (bs_roots s)) a, OutRemoved l)
      end
  | ORemoveWorst c =>
      match remove_worst bids (bs_arena s) (get c (bs_roots s)) with
      | None => None
      | Some (a, r, l) => Some (mkBS (set c r (bs_roots s)) a, OutRemoved l)
      end
  | ORemoveExpired c now =>
      match remove_one_expired (bs_arena s) (get c (bs_roots s)) now with
      | None => None
      | Some (a, r, l) => Some (mkBS (set c r (bs_roots s)) a, OutRemoved l)
      end
  | OSetQty c k q =>
      match iter_all bids (bs_arena s) (get c (bs_roots s)) with
      | None => None
      | Some L =>
          match find (fun x => l_key (snd x) =? k) L with
          | None => Some (s, OutUnit)
          | Some (h, _) =>
              match set_quantity (bs_arena s) h q with
              | None => None
              | Some a => Some (mkBS (bs_roots s) a, OutUnit)
              end
          end
      end
  end.

Fixpoint bs_run (bids : bool) (s : bookside) (os : list op) : option (bookside * list out) :=
  match os with
  | [] => Some (s, [])
  | o :: os' =>
      match bs_step bids s o with
      | None => None
      | Some (s1, x) =>
          match bs_run bids s1 os' with
          | None => None
          | Some (s2, xs) => Some (s2, x :: xs)
          end
      end
  end.

(** all orders of a component in iteration order *)
Definition bs_orders (bids : bool) (s : bookside) (c : comp) : option (list leaf) :=
  match iter_all bids (bs_arena s) (get c (bs_roots s)) with
  | Some L => Some (map snd L)
  | None => None
  end.
