(** Vocabulary for the statements about conditional swaps. *)
From Coq Require Import List ZArith Bool.
From Verif Require Import Fixed Bank Tcs.
Import ListNotations.
Open Scope Z_scope.

(** all that was bought, all that was sold (start incentives included) under one
    swap, identified by account and id *)
Definition bought_in (k id : Z) (e : sevent) : Z :=
  match e with ETrigger k' id' b _ => if (k' =? k) && (id' =? id) then b else 0 | _ => 0 end.
Definition sold_in (k id : Z) (e : sevent) : Z :=
  match e with
  | ETrigger k' id' _ s => if (k' =? k) && (id' =? id) then s else 0
  | EStart k' id' s => if (k' =? k) && (id' =? id) then s else 0
  | _ => 0
  end.
Definition total_bought (k id : Z) (log : list sevent) : Z := fold_right (fun e t => bought_in k id e + t) 0 log.
Definition total_sold (k id : Z) (log : list sevent) : Z := fold_right (fun e t => sold_in k id e + t) 0 log.
(** the event moves tokens of this swap, or removes it *)
Definition touches (k id : Z) (e : sevent) : Prop :=
  match e with
  | ETrigger k' id' _ _ | EStart k' id' _ | EClose k' id' => k' = k /\ id' = id
  | ECreate _ _ _ _ => False
  end.
(** a group without accounts *)
Definition no_accounts (w : sworld) : Prop := forall k, sw_accts w k = None.

(** ** balances *)
(** exact balance of an account in a token, in units of 2^-96 native tokens;
    negative: debt *)
From Verif Require Import BankSystem BankSpec.
Definition balance (w : sworld) (k t : Z) : Z :=
  match sw_accts w k, sw_banks w t with
  | Some a, Some b => match pos_get (s_pos a) t with Some p => worth (b_di b) (b_bi b) (t_ix p) | None => 0 end
  | _, _ => 0
  end.
(** one native token in these units *)
Definition token_unit : Z := fone * fone.
(** one position per token *)
Definition one_each (a : sacct) : Prop := NoDup (map fst (s_pos a)).
Definition usable (b : bank) : Prop := 0 < b_di b /\ 0 < b_bi b /\ 0 <= b_lof b.
Definition fees_of (w : sworld) (t : Z) : Z := match sw_banks w t with Some b => b_fees b | None => 0 end.
(** rounding of one bank operation *)
Definition slack (b : bank) : Z := Z.max (b_di b) (b_bi b) + fone.
(** the account has an open position in the token / one that something else needs *)
Definition opened (w : sworld) (k t : Z) : bool :=
  match sw_accts w k with Some a => match pos_get (s_pos a) t with Some _ => true | None => false end | None => false end.
Definition needed (a : sacct) (t : Z) : Prop := exists p, pos_get (s_pos a) t = Some p /\ 0 < t_use p.
(** between [w] and [w'], the balance of account [k] in token [t] (bank [b]) changed by
    [amount] units of 2^-96 native tokens, up to the rounding of the bank; a position
    that is closed leaves less than one native token to the bank *)
Definition balance_moves (w w' : sworld) (k t : Z) (b : bank) (amount : Z) : Prop :=
  let d := balance w' k t - balance w k t in
  amount - fone - (if opened w' k t then 0 else token_unit) < d < amount + slack b.
