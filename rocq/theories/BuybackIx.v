(** The instruction account_buyback_fees_with_mngo as a whole (instructions/account_buyback_fees_with_mngo.rs): the amounts are
    [buyback_fees] of Buyback.v.  Left out: account constraints (C45), log messages; the oracle prices are arguments. *)
From Coq Require Import List ZArith Lia Bool.
From Verif Require Import Fixed PerpTypes Interest Bank Buyback.
Import ListNotations.
Open Scope Z_scope.

(** [b_mngo], [b_quote]: the two banks (different tokens); positions of the account and of the DAO in both; the DAO's other token
    positions, and the number of its active perp positions and spot orders *)
Record bstate := mkBS { bs_mngo : bank; bs_quote : bank; bs_am : tpos; bs_aq : tpos; bs_dm : tpos; bs_dq : tpos; bs_fees : bfees;
  bs_rest : list tpos; bs_perps : Z; bs_spots : Z }.
(** [deactivate_token_position_and_log] asserts that the position is not in use *)
Definition may_close (active : bool) (p : tpos) : option unit := guard (active || (t_use p =? 0)).
(** :14-185; a position the account or the DAO does not have is an empty one ([ensure_token_position]); result: the move, if any *)
Definition buyback_ix (self : bool) (s : bstate) (now interval max_usd : Z) (mngo_oracle quote_oracle bonus : fx) : option (bstate * option buyback) :=
  let* _ := guard (negb self) in
  let mngo_price := Z.min mngo_oracle (b_stable (bs_mngo s)) in
  let fees_price := Z.max quote_oracle (b_stable (bs_quote s)) in
  let* (f, r) := buyback_fees (bs_fees s) now interval max_usd mngo_price fees_price bonus (native (bs_mngo s) (bs_am s)) (native (bs_quote s) (bs_dq s)) in
  match r with
  | None => Some (mkBS (bs_mngo s) (bs_quote s) (bs_am s) (bs_aq s) (bs_dm s) (bs_dq s) f (bs_rest s) (bs_perps s) (bs_spots s), None)
  | Some x =>
      let* _ := guard (0 <=? t_ix (bs_dm s)) in
      let* (m, am, act) := withdraw_without_fee (bs_mngo s) (bs_am s) (bb_mngo x) now in
      let* _ := may_close act am in
      let* (m, dm, _) := deposit m (bs_dm s) (bb_mngo x) now in
      let* (q, dq, act) := withdraw_without_fee (bs_quote s) (bs_dq s) (bb_fees x) now in
      let* _ := may_close act dq in
      let* (q, aq, act) := deposit q (bs_aq s) (bb_fees x) now in
      let* _ := may_close act aq in
      let* _ := guard ((0 <=? t_ix dm) && (0 <=? t_ix dq) && forallb (fun p => 0 <=? t_ix p) (bs_rest s)) in
      let* _ := guard ((bs_perps s =? 0) && (bs_spots s =? 0)) in
      Some (mkBS m q am aq dm dq f (bs_rest s) (bs_perps s) (bs_spots s), Some x)
  end.
