(** Specification vocabulary for a book side with fixed and pegged orders,
    independent of the iterator.  An entry is (pegged?, order). *)
From Coq Require Import List ZArith Bool.
From Verif Require Import OrderTree OrderTreeSpec Keys.
Import ListNotations.
Open Scope Z_scope.

Definition entry := (bool * leaf)%type.

(** upper half of the key: price of a fixed order, offset + 2^63 of a pegged one *)
Definition eff_price (oracle : Z) (e : entry) : Z :=
  if fst e then oracle + (l_key (snd e) / 2 ^ 64 - 2 ^ 63) else l_key (snd e) / 2 ^ 64.

(** lower half of the key: the market's sequence number when the order was placed
    (bids store its complement) *)
Definition seqno (sd : side) (l : leaf) : Z :=
  if sd then u64_max - l_key l mod 2 ^ 64 else l_key l mod 2 ^ 64.

(** pegged orders whose price is not in [1, i64::MAX) take no part in matching *)
Definition representable (oracle : Z) (l : leaf) : bool :=
  (1 <=? eff_price oracle (true, l)) && (eff_price oracle (true, l) <? i64_max).

Definition better_price (sd : side) (p q : Z) : Prop := if sd then q < p else p < q.

(** price-time priority; the (impossible in practice) tie of equal sequence
    numbers is broken in favour of the pegged order *)
Definition before (sd : side) (oracle : Z) (x y : entry) : Prop :=
  better_price sd (eff_price oracle x) (eff_price oracle y) \/
  (eff_price oracle x = eff_price oracle y /\
   (seqno sd (snd x) < seqno sd (snd y) \/
    (seqno sd (snd x) = seqno sd (snd y) /\ fst x = true /\ fst y = false))).

(** an order is matchable: not expired, and not pegged beyond its limit *)
Definition matchable (sd : side) (now oracle : Z) (e : entry) : Prop :=
  ~ (0 < l_tif (snd e) /\ l_timestamp (snd e) + l_tif (snd e) <= now) /\
  (fst e = true -> l_peg_limit (snd e) <> -1 ->
     ~ better_price sd (eff_price oracle e) (l_peg_limit (snd e))).

(** fixed orders are only created with prices in [1, i64::MAX] *)
Definition fixed_ok (l : leaf) : Prop := 1 <= l_key l / 2 ^ 64 <= i64_max.

(** all the entries of a side that can be matched at this oracle price *)
Definition entries (oracle : Z) (F P : list leaf) : list entry :=
  map (pair false) F ++ map (pair true) (filter (representable oracle) P).

(** ** book depth *)
(** cost of taking [q] units off orders (quantity, price) from the front *)
Fixpoint cost_of_taking (q : Z) (L : list (Z * Z)) : Z :=
  match L with
  | [] => 0
  | (qty, p) :: L' => Z.min q qty * p + cost_of_taking (q - Z.min q qty) L'
  end.
Definition total_qty (L : list (Z * Z)) : Z := fold_right (fun x s => fst x + s) 0 L.
