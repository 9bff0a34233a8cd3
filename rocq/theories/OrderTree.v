(** * Model of the order book's critbit tree in its node arena.

    Models src/state/orderbook/nodes.rs and src/state/orderbook/ordertree.rs,
    ordertree_iterator.rs  (paths below programs/mango-v4/src).

    Conventions: [None] as the result of a modelled function is a Rust panic
    (failed unwrap/assert/unreachable, out of bounds index) or an exhausted
    fuel; the theorems show that neither happens.  [u32] handles are [nat];
    keys ([u128]), timestamps and quantities are [Z]. *)
From Coq Require Import List ZArith Lia Bool Arith.
Import ListNotations.
Open Scope Z_scope.

Definition u64_max : Z := 2 ^ 64 - 1.

(** nodes.rs:137-183 [LeafNode].  [tag], paddings and [reserved] are constant
    and dropped; [owner] (a Pubkey) and [order_type] are opaque integers. *)
Record leaf := mkLeaf {
  l_owner_slot : Z;
  l_order_type : Z;
  l_tif : Z;          (* time_in_force : u16 *)
  l_key : Z;          (* key : u128 *)
  l_owner : Z;
  l_quantity : Z;     (* i64 *)
  l_timestamp : Z;    (* u64 *)
  l_peg_limit : Z;    (* i64 *)
  l_client_id : Z }.

(** nodes.rs:79-101 [InnerNode] *)
Record inner := mkInner {
  i_plen : Z;         (* prefix_len : u32 *)
  i_key : Z;
  i_c0 : nat; i_c1 : nat;     (* children *)
  i_e0 : Z; i_e1 : Z }.       (* child_earliest_expiry *)

(** nodes.rs:13-21 [NodeTag] and nodes.rs:250-258, 263-270: the contents of one
    arena slot.  [NFree next last]: tag LastFreeNode iff [last]. *)
Inductive anynode :=
| NUninit
| NInner (i : inner)
| NLeaf (l : leaf)
| NFree (next : nat) (last : bool).

(** ordertree.rs:38-42 [OrderTreeRoot] *)
Record root := mkRoot { maybe_node : nat; leaf_count : nat }.

(** ordertree.rs:60-68 [OrderTreeNodes]; [order_tree_type] is passed separately
    where it is used.  The array length (1024 in the code, MAX_ORDERTREE_NODES)
    is the length of the list: the theorems hold for every length. *)
Record arena := mkArena {
  bump : nat; free_len : nat; free_head : nat; nodes : list anynode }.

(** ordertree.rs:46-54 *)
Definition root_node (r : root) : option nat :=
  match leaf_count r with O => None | S _ => Some (maybe_node r) end.

(** nodes.rs:234-240 (the u64 addition cannot overflow for the well-formed
    leaves of the theorems, see [leaf_ok]) *)
Definition expiry (l : leaf) : Z :=
  if l_tif l =? 0 then u64_max else l_timestamp l + l_tif l.

(** nodes.rs:244-246 *)
Definition is_expired (l : leaf) (now : Z) : bool :=
  (0 <? l_tif l) && (l_timestamp l + l_tif l <=? now).

(** nodes.rs:128-130 *)
Definition inner_expiry (i : inner) : Z := Z.min (i_e0 i) (i_e1 i).

(** nodes.rs: AnyNode::earliest_expiry *)
Definition node_expiry (n : anynode) : option Z :=
  match n with
  | NInner i => Some (inner_expiry i)
  | NLeaf l => Some (expiry l)
  | _ => None
  end.

(** nodes.rs:287-292 [AnyNode::key] *)
Definition node_key (n : anynode) : option Z :=
  match n with
  | NInner i => Some (i_key i)
  | NLeaf l => Some (l_key l)
  | _ => None
  end.

(** [u128::leading_zeros] *)
Definition clz128 (x : Z) : Z := if x =? 0 then 128 else 127 - Z.log2 x.

(** [1u128 << (127 - prefix_len)], panics when the shift underflows;
    nodes.rs:121-122 and ordertree.rs:365-366 *)
Definition crit_bit (plen key : Z) : option bool :=
  if (0 <=? plen) && (plen <=? 127)
  then Some (negb (Z.land key (Z.shiftl 1 (127 - plen)) =? 0))
  else None.

(** [children[crit_bit as usize]] *)
Definition child (i : inner) (b : bool) : nat := if b then i_c1 i else i_c0 i.
Definition child_exp (i : inner) (b : bool) : Z := if b then i_e1 i else i_e0 i.
Definition set_child_exp (i : inner) (b : bool) (e : Z) : inner :=
  if b then mkInner (i_plen i) (i_key i) (i_c0 i) (i_c1 i) (i_e0 i) e
       else mkInner (i_plen i) (i_key i) (i_c0 i) (i_c1 i) e (i_e1 i).

(** nodes.rs:120-124 *)
Definition walk_down (i : inner) (key : Z) : option (nat * bool) :=
  match crit_bit (i_plen i) key with
  | Some b => Some (child i b, b)
  | None => None
  end.

(** array write *)
Fixpoint upd {A} (l : list A) (n : nat) (x : A) : list A :=
  match l, n with
  | [], _ => []
  | _ :: t, O => x :: t
  | h :: t, S m => h :: upd t m x
  end.

Definition set_nodes (a : arena) (ns : list anynode) : arena :=
  mkArena (bump a) (free_len a) (free_head a) ns.

(** ordertree.rs:84-101: [node]/[node_mut] followed by [unwrap]: only inner and
    leaf nodes are visible. *)
Definition node (a : arena) (h : nat) : option anynode :=
  match nth_error (nodes a) h with
  | Some (NInner i) => Some (NInner i)
  | Some (NLeaf l) => Some (NLeaf l)
  | _ => None
  end.

(** ordertree.rs:254-272 [remove(key).unwrap()] *)
Definition slot_remove (a : arena) (h : nat) : option (arena * anynode) :=
  match node a h with
  | None => None
  | Some v =>
      Some (mkArena (bump a) (S (free_len a)) h
              (upd (nodes a) h (NFree (free_head a) (Nat.eqb (free_len a) 0))), v)
  end.

(** Result of fallible code that does not panic: [inl] = Ok, [inr tt] = Err. *)
Definition res (A : Type) : Type := (A + unit)%type.

(** ordertree.rs:275-308 [insert].  The [bump_index < u32::MAX] condition is
    implied by [bump_index < nodes.len()] (1024) and dropped. *)
Definition slot_insert (a : arena) (v : anynode) : option (arena * res nat) :=
  match free_len a with
  | O =>
      if Nat.ltb (bump a) (length (nodes a)) then
        Some (mkArena (S (bump a)) 0 (free_head a) (upd (nodes a) (bump a) v),
              inl (bump a))
      else Some (a, inr tt)
  | S fl =>
      let h := free_head a in
      match nth_error (nodes a) h with
      | Some (NFree next last) =>
          (* assert!(free_list_len > 1) resp. assert_eq!(free_list_len, 1) *)
          if Bool.eqb last (Nat.eqb fl 0) then
            Some (mkArena (bump a) fl next (upd (nodes a) h v), inl h)
          else None
      | _ => None
      end
  end.

(** ordertree.rs:409-426; the stack's head is its top, so [rev] is dropped *)
Fixpoint update_parents (a : arena) (stack : list (nat * bool)) (old new : Z)
  : option arena :=
  match stack with
  | [] => Some a
  | (h, b) :: rest =>
      match node a h with
      | Some (NInner i) =>
          if child_exp i b =? old then
            let i' := set_child_exp i b new in
            update_parents (set_nodes a (upd (nodes a) h (NInner i')))
              rest (inner_expiry i) (inner_expiry i')
          else Some a
      | _ => None
      end
  end.

(** ordertree.rs:329-398: the walk-down loop of [insert_leaf] *)
Fixpoint insert_loop (fuel : nat) (a : arena) (r : root) (nl : leaf)
  (stack : list (nat * bool)) (ph : nat)
  : option (arena * root * res (nat * option leaf)) :=
  match fuel with
  | O => None
  | S fuel' =>
    match node a ph with
    | None => None
    | Some pc =>
      let place (pkey : Z) (pexp : Z) :=
        (* ordertree.rs:364-397 *)
        let shared := clz128 (Z.lxor pkey (l_key nl)) in
        match crit_bit shared (l_key nl) with
        | None => None
        | Some b =>
          match slot_insert a (NLeaf nl) with
          | None => None
          | Some (a1, inr e) => Some (a1, r, inr e)
          | Some (a1, inl lh) =>
            match slot_insert a1 pc with
            | None => None
            | Some (a2, inr e) =>
                match slot_remove a2 lh with
                | None => None
                | Some (a3, _) => Some (a3, r, inr e)
                end
            | Some (a2, inl mh) =>
                match node a2 ph with
                | None => None
                | Some _ =>
                  let np :=
                    if b
                    then mkInner shared (l_key nl) mh lh pexp (expiry nl)
                    else mkInner shared (l_key nl) lh mh (expiry nl) pexp in
                  let a3 := set_nodes a2 (upd (nodes a2) ph (NInner np)) in
                  let upd_res :=
                    if expiry nl <? pexp
                    then update_parents a3 stack pexp (expiry nl)
                    else Some a3 in
                  match upd_res with
                  | None => None
                  | Some a4 =>
                      Some (a4, mkRoot (maybe_node r) (S (leaf_count r)),
                            inl (lh, None))
                  end
                end
            end
          end
        end in
      match pc with
      | NLeaf old =>
          if l_key old =? l_key nl then
            (* clobber the existing leaf, ordertree.rs:334-344 *)
            match update_parents (set_nodes a (upd (nodes a) ph (NLeaf nl)))
                    stack (expiry old) (expiry nl) with
            | None => None
            | Some a1 => Some (a1, r, inl (ph, Some old))
            end
          else place (l_key old) (expiry old)
      | NInner i =>
          let shared := clz128 (Z.lxor (i_key i) (l_key nl)) in
          if i_plen i <=? shared then
            match walk_down i (l_key nl) with
            | None => None
            | Some (c, b) => insert_loop fuel' a r nl ((ph, b) :: stack) c
            end
          else place (i_key i) (inner_expiry i)
      | _ => None
      end
    end
  end.

(** ordertree.rs:310-399 [insert_leaf] *)
Definition insert_leaf (a : arena) (r : root) (nl : leaf)
  : option (arena * root * res (nat * option leaf)) :=
  match root_node r with
  | None =>
      match slot_insert a (NLeaf nl) with
      | None => None
      | Some (a1, inr e) => Some (a1, r, inr e)
      | Some (a1, inl h) => Some (a1, mkRoot h 1, inl (h, None))
      end
  | Some h => insert_loop (S (length (nodes a))) a r nl [] h
  end.

(** ordertree.rs:216-233: walk down to the leaf; returns the stack (top first)
    and the final child handle.  [Some None]: key not present. *)
Fixpoint remove_walk (fuel : nat) (a : arena) (k : Z)
  (stack : list (nat * bool)) (ch : nat)
  : option (option (list (nat * bool) * nat)) :=
  match fuel with
  | O => None
  | S fuel' =>
      match node a ch with
      | Some (NInner i) =>
          match walk_down i k with
          | None => None
          | Some (c, b) => remove_walk fuel' a k ((ch, b) :: stack) c
          end
      | Some (NLeaf l) =>
          if l_key l =? k then Some (Some (stack, ch)) else Some None
      | _ => None
      end
  end.

(** ordertree.rs:194-251 [remove_by_key] *)
Definition remove_by_key (a : arena) (r : root) (k : Z)
  : option (arena * root * option leaf) :=
  match root_node r with
  | None => Some (a, r, None)
  | Some ph =>
      match node a ph with
      | Some (NLeaf l) =>
          if l_key l =? k then
            (* assert_eq!(root.leaf_count, 1) *)
            if Nat.eqb (leaf_count r) 1 then
              match slot_remove a ph with
              | None => None
              | Some (a1, _) => Some (a1, mkRoot 0 0, Some l)
              end
            else None
          else Some (a, r, None)
      | Some (NInner i) =>
          match walk_down i k with
          | None => None
          | Some (c, b) =>
              match remove_walk (length (nodes a)) a k [(ph, b)] c with
              | None => None
              | Some None => Some (a, r, None)
              | Some (Some (stack, ch)) =>
                  match stack with
                  | [] => None
                  | (parent_h, cb) :: rest =>
                      match node a parent_h with
                      | Some (NInner pi) =>
                          let oh := child pi (negb cb) in
                          match slot_remove a oh with
                          | None => None
                          | Some (a1, oc) =>
                              match node_expiry oc, node a1 parent_h with
                              | Some new_exp, Some _ =>
                                  let a2 := set_nodes a1 (upd (nodes a1) parent_h oc) in
                                  match leaf_count r with
                                  | O => None
                                  | S n =>
                                      match slot_remove a2 ch with
                                      | Some (a3, NLeaf rl) =>
                                          match update_parents a3 rest (expiry rl) new_exp with
                                          | None => None
                                          | Some a4 => Some (a4, mkRoot (maybe_node r) n, Some rl)
                                          end
                                      | _ => None
                                      end
                                  end
                              | _, _ => None
                              end
                          end
                      | _ => None
                      end
                  end
              end
          end
      | _ => None
      end
  end.

(** ordertree.rs:173-192 [leaf_min_max] *)
Fixpoint min_max_loop (fuel : nat) (a : arena) (find_max : bool) (h : nat)
  : option (nat * leaf) :=
  match fuel with
  | O => None
  | S f =>
      match node a h with
      | Some (NInner i) => min_max_loop f a find_max (child i find_max)
      | Some (NLeaf l) => Some (h, l)
      | _ => None
      end
  end.

(** outer [None] = panic / fuel; inner [None] = empty tree *)
Definition leaf_min_max (a : arena) (r : root) (find_max : bool)
  : option (option (nat * leaf)) :=
  match root_node r with
  | None => Some None
  | Some h => match min_max_loop (S (length (nodes a))) a find_max h with
              | Some x => Some (Some x)
              | None => None
              end
  end.

(** ordertree.rs:110-115 [find_worst]: bids = true *)
Definition find_worst (bids : bool) (a : arena) (r : root) :=
  leaf_min_max a r (negb bids).

(** ordertree.rs:106-108 [remove_worst] *)
Definition remove_worst (bids : bool) (a : arena) (r : root)
  : option (arena * root * option leaf) :=
  match find_worst bids a r with
  | None => None
  | Some None => Some (a, r, None)
  | Some (Some (_, l)) => remove_by_key a r (l_key l)
  end.

(** ordertree.rs:429-449 [find_earliest_expiry] *)
Fixpoint earliest_loop (fuel : nat) (a : arena) (h : nat) : option (nat * Z) :=
  match fuel with
  | O => None
  | S f =>
      match node a h with
      | Some (NInner i) => earliest_loop f a (child i (i_e1 i <? i_e0 i))
      | Some (NLeaf l) => Some (h, expiry l)
      | _ => None
      end
  end.

(** ordertree.rs:118-129 [remove_one_expired] *)
Definition remove_one_expired (a : arena) (r : root) (now : Z)
  : option (arena * root * option leaf) :=
  match root_node r with
  | None => Some (a, r, None)
  | Some h =>
      match earliest_loop (S (length (nodes a))) a h with
      | None => None
      | Some (eh, exp) =>
          if exp <? now then
            match node a eh with
            | Some n => match node_key n with
                        | Some k => remove_by_key a r k
                        | None => None
                        end
            | None => None
            end
          else Some (a, r, None)
      end
  end.

(** ordertree.rs:401-403 [is_full]; [nodes.len() - 1] with len = 1024 > 0 *)
Definition is_full (a : arena) : bool :=
  (Nat.leb (free_len a) 1) && (Nat.leb (length (nodes a) - 1) (bump a)).

(** Change of a resting order's quantity through its handle, book.rs:206-216
    ([opposing_bookside.node_mut(handle).unwrap().as_leaf_mut().unwrap()
      .quantity = new_quantity]) *)
Definition set_quantity (a : arena) (h : nat) (q : Z) : option arena :=
  match node a h with
  | Some (NLeaf l) =>
      Some (set_nodes a (upd (nodes a) h (NLeaf
        (mkLeaf (l_owner_slot l) (l_order_type l) (l_tif l) (l_key l) (l_owner l)
           q (l_timestamp l) (l_peg_limit l) (l_client_id l)))))
  | _ => None
  end.

(** ordertree_iterator.rs:48-61 [find_leftmost_leaf]: returns the new stack *)
Fixpoint leftmost (fuel : nat) (a : arena) (left : bool) (stack : list inner) (h : nat)
  : option (list inner * (nat * leaf)) :=
  match fuel with
  | O => None
  | S f =>
      match node a h with
      | Some (NInner i) => leftmost f a left (i :: stack) (child i left)
      | Some (NLeaf l) => Some (stack, (h, l))
      | _ => None
      end
  end.

(** ordertree_iterator.rs:67-86 [next], repeated until it returns None.
    [fuel2] bounds the number of calls. *)
Fixpoint iter_loop (fuel2 : nat) (a : arena) (left : bool) (stack : list inner)
  (cur : nat * leaf) : option (list (nat * leaf)) :=
  match fuel2 with
  | O => None
  | S f2 =>
      match stack with
      | [] => Some [cur]
      | i :: st =>
          match leftmost (S (length (nodes a))) a left st (child i (negb left)) with
          | None => None
          | Some (st', nxt) =>
              match iter_loop f2 a left st' nxt with
              | None => None
              | Some rest => Some (cur :: rest)
              end
          end
      end
  end.

(** ordertree_iterator.rs:17-36: collect the whole iterator, left = 1 for bids *)
Definition iter_all (bids : bool) (a : arena) (r : root) : option (list (nat * leaf)) :=
  match root_node r with
  | None => Some []
  | Some h =>
      match leftmost (S (length (nodes a))) a bids [] h with
      | None => None
      | Some (st, first) => iter_loop (S (length (nodes a))) a bids st first
      end
  end.
