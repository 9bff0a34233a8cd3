(** The slot lists of a mango account: token positions, serum open orders, perp
    positions and token conditional swaps, and the operations that claim and
    release slots (state/mango_account.rs, state/mango_account_components.rs).

    Simplifications: every slot keeps the index that identifies it, the fields
    the slot logic reads ([in_use_count], the token indexes of a serum slot, the
    id and token indexes of a conditional swap) and one number [_val] standing
    for all its other fields.  Logging is not modelled.  A [None] result is an
    error or panic, i.e. the transaction is rejected. *)

From Coq Require Import ZArith List Bool Lia.
From Verif Require Import OrderTree.
Import ListNotations.
Open Scope Z_scope.

(** u16::MAX: TokenIndex::MAX, Serum3MarketIndex::MAX, PerpMarketIndex::MAX
    (state/bank.rs:31, state/serum3_market.rs:11, state/perp_market.rs:25: all
    three are u16). *)
Definition idx_max : Z := 65535.

(** mango_account_components.rs:15-47 [TokenPosition] *)
Record tslot := mkT { t_index : Z; t_uses : Z; t_val : Z }.
(** mango_account_components.rs:112-165 [Serum3Orders] *)
Record sslot := mkS { s_market : Z; s_base : Z; s_quote : Z; s_val : Z }.
(** mango_account_components.rs:206-325 [PerpPosition] *)
Record pslot := mkP { p_market : Z; p_val : Z }.
(** token_conditional_swap.rs:50-143 [TokenConditionalSwap] *)
Record cslot := mkC { c_on : bool; c_id : Z; c_buy : Z; c_sell : Z; c_val : Z }.

(** mango_account.rs:97-190: the dynamic part of the account, and
    [next_token_conditional_swap_id] (151) of the fixed part. *)
Record acct := mkAcct {
  toks : list tslot; sers : list sslot; perps : list pslot; swaps : list cslot;
  next_id : Z }.

(** The [Default] instances: mango_account_components.rs:56-69, 184-204,
    336-365, token_conditional_swap.rs:152-181. *)
Definition t_default : tslot := mkT idx_max 0 0.
Definition s_default : sslot := mkS idx_max idx_max idx_max 0.
Definition p_default : pslot := mkP idx_max 0.
Definition c_default : cslot := mkC false 0 idx_max idx_max 0.

(** [is_active]/[is_active_for_*]: mango_account_components.rs:72-78, 175-181,
    398-404; [is_configured] token_conditional_swap.rs:188-190. *)
Definition t_active (p : tslot) : bool := negb (t_index p =? idx_max).
Definition s_active (p : sslot) : bool := negb (s_market p =? idx_max).
Definition p_active (p : pslot) : bool := negb (p_market p =? idx_max).

(** Iterator::position *)
Fixpoint position {A} (f : A -> bool) (l : list A) : option nat :=
  match l with
  | [] => None
  | x :: r => if f x then Some O else option_map S (position f r)
  end.

(** What the instructions know about the markets: the settle token of a perp
    market and the base and quote token of a serum market are fixed when the
    market is created, and a market can only be closed in a testing group
    (accounts_ix/perp_close_market.rs:9, accounts_ix/serum3_deregister_market.rs). *)
Record markets := mkMarkets { settle_of : Z -> Z; base_of : Z -> Z; quote_of : Z -> Z }.

Definition set_toks (a : acct) l := mkAcct l (sers a) (perps a) (swaps a) (next_id a).
Definition set_sers (a : acct) l := mkAcct (toks a) l (perps a) (swaps a) (next_id a).
Definition set_perps (a : acct) l := mkAcct (toks a) (sers a) l (swaps a) (next_id a).
Definition set_swaps (a : acct) l n := mkAcct (toks a) (sers a) (perps a) l n.

(** mango_account.rs:993-1006: the scan of [ensure_token_position]: stops at the
    first match, otherwise remembers the first free slot; [act] counts the active
    positions passed so far. *)
Fixpoint ensure_scan (l : list tslot) (raw act : nat) (t : Z) (mf : option (nat * nat))
  : option (nat * nat) :=
  match l with
  | [] => mf
  | p :: r =>
      if t_index p =? t then Some (raw, act)
      else if t_active p then ensure_scan r (S raw) (S act) t mf
      else ensure_scan r (S raw) act t
             (match mf with None => Some (raw, act) | Some _ => mf end)
  end.

(** mango_account.rs:989-1026 [ensure_token_position]: account, raw index,
    active index. *)
Definition ensure_token (a : acct) (t : Z) : option (acct * nat * nat) :=
  match ensure_scan (toks a) 0 0 t None with
  | None => None
  | Some (raw, act) =>
      match nth_error (toks a) raw with
      | None => None
      | Some p =>
          if t_index p =? t then Some (a, raw, act)
          else Some (set_toks a (upd (toks a) raw (mkT t 0 0)), raw, act)
      end
  end.

(** mango_account.rs:961-979 [token_position_mut]: the raw index. *)
Definition token_position (a : acct) (t : Z) : option nat :=
  position (fun p => t_index p =? t) (toks a).

(** mango_account_components.rs:103-105: in_use_count is u16, overflow panics. *)
Definition increment_in_use (a : acct) (raw : nat) : option acct :=
  match nth_error (toks a) raw with
  | Some p =>
      if t_uses p + 1 <=? idx_max
      then Some (set_toks a (upd (toks a) raw (mkT (t_index p) (t_uses p + 1) (t_val p))))
      else None
  | None => None
  end.

(** mango_account_components.rs:107-109 *)
Definition decrement_in_use (a : acct) (raw : nat) : option acct :=
  match nth_error (toks a) raw with
  | Some p => Some (set_toks a (upd (toks a) raw (mkT (t_index p) (Z.max 0 (t_uses p - 1)) (t_val p))))
  | None => None
  end.

(** mango_account.rs:1028-1049 [deactivate_token_position(_and_log)]: panics when
    the position is in use. *)
Definition deactivate_token (a : acct) (raw : nat) : option acct :=
  match nth_error (toks a) raw with
  | Some p =>
      if t_uses p =? 0
      then Some (set_toks a (upd (toks a) raw (mkT idx_max (t_uses p) (t_val p))))
      else None
  | None => None
  end.

(** mango_account.rs:1055-1078 [token_decrement_dust_deactivate]; whether the
    bank finds the remaining balance dust (bank.rs [dust_if_possible]: a position
    in use is always kept) is the input [dust]. *)
Definition decrement_dust (a : acct) (t : Z) (dust : bool) : option acct :=
  match token_position a t with
  | None => Some a
  | Some raw =>
      match decrement_in_use a raw with
      | None => None
      | Some a1 =>
          match nth_error (toks a1) raw with
          | Some p => if negb (0 <? t_uses p) && dust then deactivate_token a1 raw else Some a1
          | None => None
          end
      end
  end.

(** ensure_token_position + increment_in_use, as used by
    serum3_create_open_orders.rs:27-30, token_conditional_swap_create.rs:21-29 and
    mango_account.rs:1163-1164. *)
Definition ensure_and_use (a : acct) (t : Z) : option acct :=
  match ensure_token a t with
  | Some (a1, raw, _) => increment_in_use a1 raw
  | None => None
  end.

(** mango_account.rs:1086-1104 [create_serum3_orders] *)
Definition create_serum (a : acct) (m : Z) : option (acct * nat) :=
  match position (fun p => s_market p =? m) (sers a) with
  | Some _ => None
  | None =>
      match position (fun p => negb (s_active p)) (sers a) with
      | None => None
      | Some raw => Some (set_sers a (upd (sers a) raw (mkS m idx_max idx_max 0)), raw)
      end
  end.

(** instructions/serum3_create_open_orders.rs:19-30 ([v]: the open orders key) *)
Definition serum_create (k : markets) (a : acct) (m v : Z) : option acct :=
  match create_serum a m with
  | None => None
  | Some (a1, raw) =>
      let a2 := set_sers a1 (upd (sers a1) raw (mkS m (base_of k m) (quote_of k m) v)) in
      match ensure_and_use a2 (quote_of k m) with
      | None => None
      | Some a3 => ensure_and_use a3 (base_of k m)
      end
  end.

(** mango_account.rs:1102-1110 [deactivate_serum3_orders] *)
Definition deactivate_serum (a : acct) (m : Z) : option acct :=
  match position (fun p => s_market p =? m) (sers a) with
  | None => None
  | Some raw =>
      match nth_error (sers a) raw with
      | Some p => Some (set_sers a (upd (sers a) raw (mkS idx_max (s_base p) (s_quote p) (s_val p))))
      | None => None
      end
  end.

(** token_position_mut(t)?.decrement_in_use() *)
Definition release (a : acct) (t : Z) : option acct :=
  match token_position a t with
  | None => None
  | Some raw => decrement_in_use a raw
  end.

(** instructions/serum3_close_open_orders.rs:21-43; the open orders account has
    to be the recorded one ([v]). *)
Definition serum_close (k : markets) (a : acct) (m v : Z) : option acct :=
  match position (fun p => s_market p =? m) (sers a) with
  | None => None
  | Some raw =>
      match nth_error (sers a) raw with
      | None => None
      | Some p =>
          if negb (s_val p =? v) then None
          else
            match release a (base_of k m) with
            | None => None
            | Some a1 =>
                match release a1 (quote_of k m) with
                | None => None
                | Some a2 => deactivate_serum a2 m
                end
            end
      end
  end.

(** mango_account.rs:1147-1173 [ensure_perp_position] *)
Definition ensure_perp (a : acct) (m st : Z) : option (acct * nat) :=
  match position (fun p => p_market p =? m) (perps a) with
  | Some raw => Some (a, raw)
  | None =>
      match position (fun p => negb (p_active p)) (perps a) with
      | None => None
      | Some raw =>
          match ensure_and_use (set_perps a (upd (perps a) raw (mkP m 0))) st with
          | None => None
          | Some a1 => Some (a1, raw)
          end
      end
  end.

(** mango_account.rs:1187-1214 [deactivate_perp_position_and_log], called by
    instructions/perp_deactivate_position.rs:38 after it has checked that the
    position is empty (modelled in PerpSystem.v). *)
Definition deactivate_perp (a : acct) (m st : Z) : option acct :=
  match position (fun p => p_market p =? m) (perps a) with
  | None => None
  | Some raw =>
      match nth_error (perps a) raw with
      | None => None
      | Some p => release (set_perps a (upd (perps a) raw (mkP idx_max (p_val p)))) st
      end
  end.

(** instructions/token_conditional_swap_create.rs:20-61: the id wraps at 2^64;
    the checks on prices and fees only reject. *)
Definition swap_create (a : acct) (buy sell v : Z) : option acct :=
  match ensure_and_use a buy with
  | None => None
  | Some a1 =>
      match ensure_and_use a1 sell with
      | None => None
      | Some a2 =>
          match position (fun c => negb (c_on c)) (swaps a2) with
          | None => None
          | Some i =>
              if buy =? sell then None
              else Some (set_swaps a2 (upd (swaps a2) i (mkC true (next_id a2) buy sell v))
                           ((next_id a2 + 1) mod 2 ^ 64))
          end
      end
  end.

(** instructions/token_conditional_swap_cancel.rs:19-44 and the closing part of
    token_conditional_swap_trigger.rs (60-82 for an expired swap, 478-484):
    the slot has to be configured and to carry the given id. *)
Definition swap_close (a : acct) (i : nat) (id : Z) (dust_buy dust_sell : bool) : option acct :=
  match nth_error (swaps a) i with
  | None => None
  | Some c =>
      if negb (c_on c) then None
      else if negb (c_id c =? id) then None
      else
        match decrement_dust (set_swaps a (upd (swaps a) i c_default) (next_id a)) (c_buy c) dust_buy with
        | None => None
        | Some a1 => decrement_dust a1 (c_sell c) dust_sell
        end
  end.

(** instructions/account_expand.rs / mango_account.rs:1532-1825 at the level of
    slot lists (the byte level is in Resize.v): active slots move to the front,
    the rest is default. *)
Definition refit {A} (on : A -> bool) (d : A) (l : list A) (n : nat) : option (list A) :=
  let k := filter on l in
  if Nat.leb (length k) n then Some (k ++ repeat d (n - length k)) else None.

Definition resize_slots (a : acct) (nt ns np nc : nat) : option acct :=
  match refit t_active t_default (toks a) nt, refit s_active s_default (sers a) ns,
        refit p_active p_default (perps a) np, refit c_on c_default (swaps a) nc with
  | Some t, Some s, Some p, Some c => Some (mkAcct t s p c (next_id a))
  | _, _, _, _ => None
  end.

(** Histories. [OSet..] is any change of the contents of a slot that leaves its
    identifying fields alone (deposits, trades, …). *)
Inductive aop :=
| OEnsure (t : Z)
| OSetTok (raw : nat) (v : Z)
| OClose (raw : nat)
| OSerumCreate (m v : Z)
| OSerumClose (m v : Z)
| OPerpEnsure (m : Z)
| OSetPerp (raw : nat) (v : Z)
| OPerpDeactivate (m : Z)
| OSwapCreate (buy sell v : Z)
| OSetSwap (i : nat) (v : Z)
| OSwapClose (i : nat) (id : Z) (dust_buy dust_sell : bool)
| OResize (nt ns np nc : nat).

Definition astep (k : markets) (a : acct) (o : aop) : option acct :=
  match o with
  | OEnsure t => match ensure_token a t with Some (a1, _, _) => Some a1 | None => None end
  | OSetTok raw v =>
      match nth_error (toks a) raw with
      | Some p => Some (set_toks a (upd (toks a) raw (mkT (t_index p) (t_uses p) v)))
      | None => None
      end
  | OClose raw => deactivate_token a raw
  | OSerumCreate m v => serum_create k a m v
  | OSerumClose m v => serum_close k a m v
  | OPerpEnsure m => match ensure_perp a m (settle_of k m) with Some (a1, _) => Some a1 | None => None end
  | OSetPerp raw v =>
      match nth_error (perps a) raw with
      | Some p => Some (set_perps a (upd (perps a) raw (mkP (p_market p) v)))
      | None => None
      end
  | OPerpDeactivate m => deactivate_perp a m (settle_of k m)
  | OSwapCreate b s v => swap_create a b s v
  | OSetSwap i v =>
      match nth_error (swaps a) i with
      | Some c => Some (set_swaps a (upd (swaps a) i (mkC (c_on c) (c_id c) (c_buy c) (c_sell c) v)) (next_id a))
      | None => None
      end
  | OSwapClose i id db ds => swap_close a i id db ds
  | OResize nt ns np nc => resize_slots a nt ns np nc
  end.

(** a rejected instruction leaves the account as it was *)
Fixpoint arun (k : markets) (a : acct) (ops : list aop) : acct :=
  match ops with
  | [] => a
  | o :: r => arun k (match astep k a o with Some a1 => a1 | None => a end) r
  end.

(** instructions/account_create.rs:21-55: a new account has only default slots. *)
Definition new_acct (nt ns np nc : nat) : acct :=
  mkAcct (repeat t_default nt) (repeat s_default ns) (repeat p_default np) (repeat c_default nc) 0.
