(** One book side with fixed and oracle pegged orders: effective prices, the
    combined iterator and the operations built on it.
    Models src/state/orderbook/bookside_iterator.rs and bookside.rs. *)
From Coq Require Import List ZArith Lia Bool Arith.
From Verif Require Import OrderTree OrderTreeSpec BookArena Keys.
Import ListNotations.
Open Scope Z_scope.

(** order_type.rs:151-173 *)
Definition is_price_better (sd : side) (lhs rhs : Z) : bool :=
  if sd then rhs <? lhs else lhs <? rhs.
Definition is_price_within_limit (sd : side) (price limit : Z) : bool :=
  if sd then price <=? limit else limit <=? price.

(** bookside_iterator.rs:47-52 *)
Inductive ostate := Valid | Invalid | Skipped.

(** [i64::saturating_add] *)
Definition sat_add (x y : Z) : Z := Z.max i64_min (Z.min i64_max (x + y)).

(** bookside_iterator.rs:60-72 *)
Definition oracle_pegged_price (oracle : Z) (l : leaf) (sd : side) : ostate * Z :=
  let price := sat_add oracle (oracle_pegged_price_offset (price_data l)) in
  if (1 <=? price) && (price <? i64_max) then
    if negb (l_peg_limit l =? -1) && is_price_better sd price (l_peg_limit l)
    then (Invalid, price) else (Valid, price)
  else (Skipped, Z.max price 1).

(** bookside_iterator.rs:77-84; [None]: failed assert/unwrap *)
Definition key_for_fixed_price (key price : Z) : option Z :=
  match fixed_price_data price with
  | None => None
  | Some pd => Some (Z.lor (Z.shiftl pd 64) (as_u64 key))
  end.

(** bookside_iterator.rs:3-8 [BookSideIterItem]; the handle is reduced to its
    component ([true] = oracle pegged) *)
Record item := mkItem { it_pegged : comp; it_leaf : leaf; it_price : Z; it_state : ostate }.

(** bookside_iterator.rs:87-101 *)
Definition fixed_to_result (l : leaf) (now : Z) : option item :=
  match fixed_price_lots (price_data l) with
  | None => None
  | Some p => Some (mkItem false l p (if is_expired l now then Invalid else Valid))
  end.
(** bookside_iterator.rs:104-119 *)
Definition pegged_to_result (l : leaf) (price : Z) (st : ostate) (now : Z) : item :=
  mkItem true l price (if is_expired l now then Invalid else st).

(** bookside_iterator.rs:124-159; outer [None]: panic *)
Definition rank_orders (sd : side) (f o : option leaf) (return_worse : bool) (now oracle : Z)
  : option (option item) :=
  let o := match o with
           | None => None
           | Some l => Some (l, oracle_pegged_price oracle l sd)
           end in
  match f, o with
  | Some fl, Some (ol, (st, price)) =>
      match key_for_fixed_price (l_key ol) price with
      | None => None
      | Some k =>
          let better := if sd then k <? l_key fl else l_key fl <? k in
          if xorb better return_worse
          then match fixed_to_result fl now with None => None | Some i => Some (Some i) end
          else Some (Some (pegged_to_result ol price st now))
      end
  | None, Some (ol, (st, price)) => Some (Some (pegged_to_result ol price st now))
  | Some fl, None => match fixed_to_result fl now with None => None | Some i => Some (Some i) end
  | None, None => Some None
  end.

Definition is_skipped (oracle : Z) (sd : side) (l : leaf) : bool :=
  match fst (oracle_pegged_price oracle l sd) with Skipped => true | _ => false end.

(** the while loop of bookside_iterator.rs:170-177 *)
Fixpoint drop_skipped (oracle : Z) (sd : side) (P : list leaf) : list leaf :=
  match P with
  | [] => []
  | l :: P' => if is_skipped oracle sd l then drop_skipped oracle sd P' else P
  end.

(** bookside_iterator.rs:164-194 [BookSideIter::next].  The two tree iterators
    are represented by the lists of orders they have still to return. *)
Definition iter_next (sd : side) (now oracle : Z) (st : list leaf * list leaf)
  : option (option (item * (list leaf * list leaf))) :=
  let '(F, P) := st in
  let P := drop_skipped oracle sd P in
  match rank_orders sd (hd_error F) (hd_error P) false now oracle with
  | None => None
  | Some None => Some None
  | Some (Some i) => Some (Some (i, if it_pegged i then (F, tl P) else (tl F, P)))
  end.

(** exhausting the iterator *)
Fixpoint iter_items (fuel : nat) (sd : side) (now oracle : Z) (st : list leaf * list leaf)
  : option (list item) :=
  match fuel with
  | O => None
  | S f =>
      match iter_next sd now oracle st with
      | None => None
      | Some None => Some []
      | Some (Some (i, st')) =>
          match iter_items f sd now oracle st' with
          | None => None
          | Some is => Some (i :: is)
          end
      end
  end.

Definition merge_items (sd : side) (now oracle : Z) (F P : list leaf) : option (list item) :=
  iter_items (S (length F + length P)) sd now oracle (F, P).

(** bookside.rs:57-60 [iter_all_including_invalid], run to the end *)
Definition bs_items (sd : side) (s : bookside) (now oracle : Z) : option (list item) :=
  match bs_orders sd s false, bs_orders sd s true with
  | Some F, Some P => merge_items sd now oracle F P
  | _, _ => None
  end.

(** bookside_iterator.rs:10-14 and bookside.rs:48-54 [iter_valid] *)
Definition item_valid (i : item) : bool := match it_state i with Valid => true | _ => false end.
Definition bs_valid_items (sd : side) (s : bookside) (now oracle : Z) : option (list item) :=
  match bs_items sd s now oracle with Some L => Some (filter item_valid L) | None => None end.

(** bookside.rs:92-109 [remove_worst] *)
Definition bs_remove_worst (sd : side) (s : bookside) (now oracle : Z)
  : option (bookside * option (leaf * Z)) :=
  match find_worst sd (bs_arena s) (fst (bs_roots s)), find_worst sd (bs_arena s) (snd (bs_roots s)) with
  | Some wf, Some wp =>
      match rank_orders sd (option_map snd wf) (option_map snd wp) true now oracle with
      | None => None
      | Some None => Some (s, None)
      | Some (Some i) =>
          match bs_step sd s (ORemove (it_pegged i) (l_key (it_leaf i))) with
          | Some (s', OutRemoved (Some l)) => Some (s', Some (l, it_price i))
          | Some (s', _) => Some (s', None)
          | None => None
          end
      end
  | _, _ => None
  end.

(** bookside.rs:113-129 [remove_one_expired] *)
Definition bs_remove_one_expired (sd : side) (s : bookside) (c : comp) (now : Z)
  : option (bookside * option leaf) :=
  match bs_step sd s (ORemoveExpired c now) with
  | Some (s', OutRemoved (Some l)) => Some (s', Some l)
  | Some (s', OutRemoved None) =>
      match bs_step sd s' (ORemoveExpired (negb c) now) with
      | Some (s'', OutRemoved x) => Some (s'', x)
      | _ => None
      end
  | _ => None
  end.

(** bookside.rs:145-161 [quantity_at_price], on the list of valid items *)
Fixpoint quantity_at_price (sd : side) (limit : Z) (L : list item) : Z :=
  match L with
  | [] => 0
  | i :: L' => if is_price_better sd limit (it_price i) then 0
               else l_quantity (it_leaf i) + quantity_at_price sd limit L'
  end.

(** bookside.rs:164-170 *)
Definition best_price (L : list item) : option Z := option_map it_price (hd_error L).

(** bookside.rs:174-183; [sum] is the accumulator *)
Fixpoint impact_price_from (sum q : Z) (L : list item) : option Z :=
  match L with
  | [] => None
  | i :: L' => let sum := sum + l_quantity (it_leaf i) in
               if q <=? sum then Some (it_price i) else impact_price_from sum q L'
  end.
Definition impact_price (q : Z) (L : list item) : option Z := impact_price_from 0 q L.

(** bookside.rs:187-209 *)
Fixpoint matched_amount_from (sum_qty sum_amt q : Z) (L : list item) : option Z :=
  match L with
  | [] => None
  | i :: L' =>
      let sum_qty := sum_qty + l_quantity (it_leaf i) in
      let sum_amt := sum_amt + l_quantity (it_leaf i) * it_price i in
      let extra := sum_qty - q in
      if 0 <=? extra then Some (sum_amt - extra * it_price i)
      else matched_amount_from sum_qty sum_amt q L'
  end.
Definition matched_amount (q : Z) (L : list item) : option Z :=
  if q <=? 0 then None else matched_amount_from 0 0 q L.

(** bookside.rs:214-237; the i64 division of non-negative numbers is [Z.quot] *)
Fixpoint matched_quantity_from (sum_qty sum_amt amount : Z) (L : list item) : option Z :=
  match L with
  | [] => None
  | i :: L' =>
      let sum_qty := sum_qty + l_quantity (it_leaf i) in
      let sum_amt := sum_amt + l_quantity (it_leaf i) * it_price i in
      let extra := sum_amt - amount in
      if 0 <=? extra then Some (sum_qty - Z.quot (extra + it_price i - 1) (it_price i))
      else matched_quantity_from sum_qty sum_amt amount L'
  end.
Definition matched_quantity (amount : Z) (L : list item) : option Z :=
  if amount <=? 0 then None else matched_quantity_from 0 0 amount L.
