(** Specification vocabulary for the account slot properties C32 and C64. *)
From Coq Require Import ZArith List Bool Lia.
From Verif Require Import AccountSlots.
Import ListNotations.
Open Scope Z_scope.

(** A real token or market index: u16 values other than the reserved maximum
    (token_register.rs:51 rejects TokenIndex::MAX). *)
Definition real_index (x : Z) : Prop := 0 <= x < 65535.

(** The indexes of the active slots of an account. *)
Definition open_tokens (a : acct) : list Z :=
  filter (fun x => negb (x =? 65535)) (map t_index (toks a)).
Definition open_serums (a : acct) : list Z :=
  filter (fun x => negb (x =? 65535)) (map s_market (sers a)).
Definition open_perps (a : acct) : list Z :=
  filter (fun x => negb (x =? 65535)) (map p_market (perps a)).
Definition open_swaps (a : acct) : list cslot := filter c_on (swaps a).

Definition times (t : Z) (l : list Z) : Z := Z.of_nat (count_occ Z.eq_dec l t).

(** How often token [t] is needed by something else the account has open: perp
    positions settling in it, serum open orders and conditional swaps with it on
    either side. *)
Definition needed (k : markets) (a : acct) (t : Z) : Z :=
  times t (map (settle_of k) (open_perps a))
  + times t (map (base_of k) (open_serums a)) + times t (map (quote_of k) (open_serums a))
  + times t (map c_buy (open_swaps a)) + times t (map c_sell (open_swaps a)).

(** Instructions name real tokens and markets: they get the index from a bank,
    perp market or serum market account. *)
Definition names_real (k : markets) (o : aop) : Prop :=
  match o with
  | OEnsure t => real_index t
  | OSerumCreate m _ | OSerumClose m _ =>
      real_index m /\ real_index (base_of k m) /\ real_index (quote_of k m)
  | OPerpEnsure m | OPerpDeactivate m => real_index m /\ real_index (settle_of k m)
  | OSwapCreate b s _ => real_index b /\ real_index s
  | _ => True
  end.

(** The accounts a history of instructions can produce. *)
Definition reachable (k : markets) (a : acct) : Prop :=
  exists nt ns np nc ops, Forall (names_real k) ops /\ a = arun k (new_acct nt ns np nc) ops.
