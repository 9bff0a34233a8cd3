(** Resizing the dynamic part of a mango account, at the level of bytes:
    state/mango_account.rs [resize_dynamic_content] (1532-1825), the offsets
    (248-313, 571-619), the header (481-560) and [check_resize_from] (661-679).

    The dynamic data is a function from addresses to bytes together with its
    length.  A [None] result is an error or panic: the transaction is rejected
    and the account keeps its old bytes. *)

From Coq Require Import ZArith List Bool Lia.
Import ListNotations.
Open Scope Z_scope.

Definition mem := Z -> Z.

(** solana sol_memmove: copies [n] bytes as if through a temporary buffer *)
Definition memmove (m : mem) (dst src n : Z) : mem :=
  fun a => if (dst <=? a) && (a <? dst + n) then m (src + (a - dst)) else m a.

(** storing a list of bytes *)
Definition write (m : mem) (off : Z) (l : list Z) : mem :=
  fun a => if (off <=? a) && (a <? off + Z.of_nat (length l))
           then nth (Z.to_nat (a - off)) l 0 else m a.

(** the [n] bytes at [off] *)
Definition read (m : mem) (off : Z) (n : nat) : list Z :=
  map (fun i => m (off + Z.of_nat i)) (seq 0 n).

(** A kind of slot: its size in bytes, whether a slot is in use, the bytes of the
    default (unused) slot. *)
Record kind := mkKind { ksize : nat; kactive : list Z -> bool; kdefault : list Z }.

Definition u16_at (off : nat) (l : list Z) : Z := nth off l 0 + 256 * nth (S off) l 0.

Definition zeros (n : nat) : list Z := repeat 0 n.
Definition ffs (n : nat) : list Z := repeat 255 n.

(** TokenPosition: 184 bytes, token_index (u16) at 16
    (mango_account_components.rs:15-74) *)
Definition k_token : kind :=
  mkKind 184 (fun l => negb (u16_at 16 l =? 65535)) (zeros 16 ++ ffs 2 ++ zeros 166).
(** Serum3Orders: 120 bytes, market_index at 48, base/quote_token_index at 50, 52
    (mango_account_components.rs:112-204) *)
Definition k_serum : kind :=
  mkKind 120 (fun l => negb (u16_at 48 l =? 65535)) (zeros 48 ++ ffs 6 ++ zeros 66).
(** PerpPosition: 304 bytes, market_index at 0
    (mango_account_components.rs:206-404) *)
Definition k_perp : kind :=
  mkKind 304 (fun l => negb (u16_at 0 l =? 65535)) (ffs 2 ++ zeros 302).
(** PerpOpenOrder: 96 bytes, market at 2; SideAndOrderTree::BidFixed is 0
    (mango_account_components.rs:803-855) *)
Definition k_oo : kind :=
  mkKind 96 (fun l => negb (u16_at 2 l =? 65535)) (zeros 2 ++ ffs 2 ++ zeros 92).
(** TokenConditionalSwap: 200 bytes, expiry_timestamp (u64) at 40,
    buy/sell_token_index at 80, 82, is_configured (u8) at 84
    (token_conditional_swap.rs:50-190) *)
Definition k_tcs : kind :=
  mkKind 200 (fun l => nth 84 l 0 =? 1) (zeros 40 ++ ffs 8 ++ zeros 32 ++ ffs 4 ++ zeros 116).

(** MangoAccountDynamicHeader (mango_account.rs:470-475); the counts are u8 *)
Record hdr := mkHdr { tc : nat; sc : nat; pc : nat; oc : nat; cc : nat }.

Definition bytes_of (k : kind) (n : nat) : Z := Z.of_nat (ksize k) * Z.of_nat n.

(** mango_account.rs:249-313, the vector offsets (of the length field); 4 bytes
    padding and 4 bytes length per vector *)
Definition token_vec : Z := 8 + 4.
Definition serum_vec (h : hdr) : Z := token_vec + (4 + bytes_of k_token (tc h)) + 4.
Definition perp_vec (h : hdr) : Z := serum_vec h + (4 + bytes_of k_serum (sc h)) + 4.
Definition oo_vec (h : hdr) : Z := perp_vec h + (4 + bytes_of k_perp (pc h)) + 4.
Definition tcs_vec (h : hdr) : Z := oo_vec h + (4 + bytes_of k_oo (oc h)) + 4.
Definition reserved_off (h : hdr) : Z := tcs_vec h + (4 + bytes_of k_tcs (cc h)).
Definition dynamic_size (h : hdr) : Z := reserved_off h + 64.

(** mango_account.rs:571-619: the offset of the first slot of each kind;
    slot [i] is [i] sizes further *)
Definition token_off (h : hdr) : Z := token_vec + 4.
Definition serum_off (h : hdr) : Z := serum_vec h + 4.
Definition perp_off (h : hdr) : Z := perp_vec h + 4.
Definition oo_off (h : hdr) : Z := oo_vec h + 4.
Definition tcs_off (h : hdr) : Z := tcs_vec h + 4.
Definition slot_off (start : Z) (k : kind) (i : nat) : Z := start + bytes_of k i.
Definition slot (m : mem) (start : Z) (k : kind) (i : nat) : list Z :=
  read m (slot_off start k i) (ksize k).

Definition u32_at (m : mem) (a : Z) : Z :=
  m a + 256 * m (a + 1) + 65536 * m (a + 2) + 16777216 * m (a + 3).

(** u8::try_from(..).unwrap() *)
Definition count_at (m : mem) (a : Z) : option nat :=
  let v := u32_at m a in if (0 <=? v) && (v <=? 255) then Some (Z.to_nat v) else None.

(** mango_account.rs:481-547 [from_bytes] *)
Definition parse (m : mem) (len : Z) : option hdr :=
  if negb (m 0 =? 1) then None else
  match count_at m token_vec with None => None | Some t =>
  match count_at m (serum_vec (mkHdr t 0 0 0 0)) with None => None | Some s =>
  match count_at m (perp_vec (mkHdr t s 0 0 0)) with None => None | Some p =>
  match count_at m (oo_vec (mkHdr t s p 0 0)) with None => None | Some o =>
  let h := mkHdr t s p o 0 in
  if tcs_vec h + 4 <? len then
    match count_at m (tcs_vec h) with None => None | Some c => Some (mkHdr t s p o c) end
  else Some h
  end end end end.

(** mango_account.rs:648-679 *)
Definition health_accounts (h : hdr) : nat := tc h * 2 + sc h + pc h * 2.
Definition check_resize (new prev : hdr) : bool :=
  (negb (Nat.ltb (health_accounts prev) (health_accounts new)) || Nat.leb (health_accounts new) 28)
  && (negb (Nat.ltb (oc prev) (oc new)) || Nat.leb (oc new) 64)
  && (negb (Nat.ltb (cc prev) (cc new)) || Nat.leb (cc new) 64).

(** mango_account.rs:1571-1589 (and 1591-1609, 1611-1629, 1646-1664): move the
    active slots to the front; [i] runs over the slots, [act] counts the active *)
Fixpoint defrag (m : mem) (start : Z) (k : kind) (i n act : nat) : mem * nat :=
  match n with
  | O => (m, act)
  | S n' =>
      let src := slot_off start k i in
      if kactive k (read m src (ksize k)) then
        let m1 := if Nat.eqb i act then m
                  else memmove m (slot_off start k act) src (Z.of_nat (ksize k)) in
        defrag m1 start k (S i) n' (S act)
      else defrag m start k (S i) n' act
  end.

(** mango_account.rs:1633-1644: highest active perp order slot + 1 *)
Fixpoint blocked (m : mem) (start : Z) (k : kind) (n : nat) : nat :=
  match n with
  | O => O
  | S n' => if kactive k (read m (slot_off start k n') (ksize k)) then S n' else blocked m start k n'
  end.

(** One conditional move of a block of preserved bytes: [mo] old start, [mw] new
    start, [mn] bytes; mango_account.rs:1682-1728 and 1738-1786. *)
Record block := mkBlock { mo : Z; mw : Z; mn : Z }.
Definition move_left (m : mem) (b : block) : mem :=
  if (mw b <? mo b) && (0 <? mn b) then memmove m (mw b) (mo b) (mn b) else m.
Definition move_right (m : mem) (b : block) : mem :=
  if (mo b <? mw b) && (0 <? mn b) then memmove m (mw b) (mo b) (mn b) else m.

(** mango_account.rs:1790-1806: default slots [i] .. [i+n-1] *)
Fixpoint defaults (m : mem) (start : Z) (k : kind) (i n : nat) : mem :=
  match n with
  | O => m
  | S n' => defaults (write m (slot_off start k i) (kdefault k)) start k (S i) n'
  end.

(** mango_account.rs:1489-1497 [write_borsh_vec_length_and_padding]; [off] is the
    offset of the first slot *)
Definition write_len (m : mem) (off : Z) (count : nat) : mem :=
  write (write m (off - 4 - 4) (zeros 4)) (off - 4) [Z.of_nat count; 0; 0; 0].

(** mango_account.rs:1532-1825; [len] is the length of the dynamic data. *)
Definition resize (len : Z) (m : mem) (old new : hdr) : option mem :=
  if negb (check_resize new old) then None else
  let (m1, at_) := defrag m (token_off old) k_token 0 (tc old) 0 in
  let (m2, as_) := defrag m1 (serum_off old) k_serum 0 (sc old) 0 in
  let (m3, ap) := defrag m2 (perp_off old) k_perp 0 (pc old) 0 in
  let bo := blocked m3 (oo_off old) k_oo (oc old) in
  let (m4, ac) := defrag m3 (tcs_off old) k_tcs 0 (cc old) 0 in
  if negb (Nat.leb at_ (tc new) && Nat.leb as_ (sc new) && Nat.leb ap (pc new)
           && Nat.leb bo (oc new) && Nat.leb ac (cc new)) then None else
  let b_serum := mkBlock (serum_off old) (serum_off new) (bytes_of k_serum as_) in
  let b_perp := mkBlock (perp_off old) (perp_off new) (bytes_of k_perp ap) in
  let b_oo := mkBlock (oo_off old) (oo_off new) (bytes_of k_oo bo) in
  let b_tcs := mkBlock (tcs_off old) (tcs_off new) (bytes_of k_tcs ac) in
  let m5 := move_left (move_left (move_left (move_left m4 b_serum) b_perp) b_oo) b_tcs in
  let m6 := move_right (move_right (move_right (move_right m5 b_tcs) b_oo) b_perp) b_serum in
  let d1 := defaults m6 (token_off new) k_token at_ (tc new - at_) in
  let d2 := defaults d1 (serum_off new) k_serum as_ (sc new - as_) in
  let d3 := defaults d2 (perp_off new) k_perp ap (pc new - ap) in
  let d4 := defaults d3 (oo_off new) k_oo bo (oc new - bo) in
  let d5 := defaults d4 (tcs_off new) k_tcs ac (cc new - ac) in
  if len <? reserved_off new + 64 then None else
  let r := write d5 (reserved_off new) (zeros 64) in
  let l1 := write_len r (token_off new) (tc new) in
  let l2 := write_len l1 (serum_off new) (sc new) in
  let l3 := write_len l2 (perp_off new) (pc new) in
  let l4 := write_len l3 (oo_off new) (oc new) in
  let l5 := write_len l4 (tcs_off new) (cc new) in
  Some l5.
