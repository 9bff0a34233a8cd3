(** The instruction perp_settle_pnl as a whole (instructions/perp_settle_pnl.rs): the health of both
    accounts before, the amounts ([settle_pnl] of SettleLimit), the transfers of settle tokens and the
    settler's fee.
    Left out: log messages, the statistics [perp_spot_transfers]; that the accounts A and B differ
    (:14-18) is built into the state, and the settler may be one of them. *)
From Coq Require Import List ZArith Lia Bool.
From Verif Require Import OrderTree Keys PerpTypes SettleLimit Interest Bank Health LiqState TokenLiq PerpLiqBase Scaling TokenMove Fixed.
Import ListNotations.
Open Scope Z_scope.

(** an account: its position and settle limits in the market, its position in the settle token, and
    all its token positions, open orders and perp positions as inputs of the health cache (the
    entries of the settle token and of the market are overwritten, except for their prices) *)
Record sacct := mkSA {
  sa_perp : position; sa_lim : limits; sa_tok : tpos;
  sa_L : list pos_in; sa_O : list serum_in; sa_P : list pinfo }.
(** what the instruction only reads: market, its settings, the settings of the settle bank, oracle
    prices of market and settle token, time *)
Record senv := mkXE {
  xe_mk : market; xe_par : bpar; xe_sc : scfg; xe_cfg : wcfg; xe_price : fx; xe_sprice : fx; xe_now : Z }.

(** health/cache.rs:1378-1400: the perp infos of the account *)
Definition perp_info (e : senv) (p : position) (pr : prices) : pinfo :=
  new_pinfo p (xe_mk e) (wc_index (xe_cfg e)) (bp_init_aw (xe_par e)) (bp_init_lw (xe_par e)) (bp_maint_ov (xe_par e)) (bp_init_ov (xe_par e)) pr.
Definition perps_with (e : senv) (p : position) (P : list pinfo) : list pinfo :=
  map (fun pi => if pi_market pi =? mk_index (xe_mk e) then perp_info e p (pi_prices pi) else pi) P.
(** health/cache.rs:1238-1248, :1263-1408 [new_health_cache] *)
Definition acct_cache (e : senv) (b : bank) (a : sacct) : option cache :=
  let* L := positions_with (xe_cfg e) b (sa_tok a) (sa_L a) in
  build_cache false L (sa_O a) (perps_with e (sa_perp a) (sa_P a)).
(** :32-37 the positions exist *)
Definition has_positions (e : senv) (a : sacct) : bool :=
  existsb (fun q => ti_index (pin_info q) =? wc_index (xe_cfg e)) (sa_L a) &&
  existsb (fun pi => pi_market pi =? mk_index (xe_mk e)) (sa_P a).

(** the account that gets the fee: A, B or another one, with its (fresh or existing) position *)
Inductive settler := SettlerA | SettlerB | SettlerOther (p : tpos).
(** bank, accounts A and B, the settler's position if it is another account, whether that position is
    to be closed, settled amount, fee *)
Record sout := mkSO {
  so_bank : bank; so_a : sacct; so_b : sacct; so_other : option tpos; so_closed : bool; so_amount : fx; so_fee : fx }.

Definition with_settled (a : sacct) (pl : position * limits) (t : tpos) : sacct :=
  mkSA (fst pl) (snd pl) t (sa_L a) (sa_O a) (sa_P a).
(** :12-258; [signed]: the signer is owner or delegate of the settler (:212-217).  Health: :41-54,
    amounts: :57-182, transfers: :196-204, fee: :219-239 *)
Definition perp_settle_pnl (e : senv) (b : bank) (a c : sacct) (w : settler) (signed : bool) : option sout :=
  let* _ := guard (has_positions e a && has_positions e c) in
  let* hc := acct_cache e b c in
  let* bmax := perp_max_settle hc (wc_index (xe_cfg e)) in
  let* ha := acct_cache e b a in
  let* h_end := health ha HLiqEnd in
  let* h_maint := health ha HMaint in
  let* r := settle_pnl (xe_mk e) (xe_sc e) (sa_perp a) (sa_lim a) (sa_perp c) (sa_lim c) (xe_price e) (xe_sprice e) bmax h_end h_maint (xe_now e) in
  let* (b1, ta, _) := deposit b (sa_tok a) (st_amount r - st_fee r) (xe_now e) in
  let* (b2, tc, _) := withdraw_without_fee b1 (sa_tok c) (st_amount r) (xe_now e) in
  let* _ := guard signed in
  match w with
  | SettlerA =>
      let* (b3, ta, act) := deposit b2 ta (st_fee r) (xe_now e) in
      Some (mkSO b3 (with_settled a (st_a r) ta) (with_settled c (st_b r) tc) None (negb act) (st_amount r) (st_fee r))
  | SettlerB =>
      let* (b3, tc, act) := deposit b2 tc (st_fee r) (xe_now e) in
      Some (mkSO b3 (with_settled a (st_a r) ta) (with_settled c (st_b r) tc) None (negb act) (st_amount r) (st_fee r))
  | SettlerOther p =>
      let* (b3, p', act) := deposit b2 p (st_fee r) (xe_now e) in
      Some (mkSO b3 (with_settled a (st_a r) ta) (with_settled c (st_b r) tc) (Some p') (negb act) (st_amount r) (st_fee r))
  end.
