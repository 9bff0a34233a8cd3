(** The tokens, spot markets and perp markets of a group: instructions token_register.rs, token_register_trustless.rs, token_add_bank.rs, token_deregister.rs,
    serum3_register_market.rs, serum3_deregister_market.rs, perp_create_market.rs, perp_close_market.rs, with the constraints of accounts_ix of the same names.
    Accounts at addresses derived from seeds are lists with keys; [init] fails if the address is in use.  Mints, external markets and settings of banks are
    numbers; the contents of banks and perp markets, signatures and gates (C38, C45) are left out.  The testing flag of the group is an argument of each step. *)
From Coq Require Import List ZArith Lia Bool.
From Verif Require Import Bank.
Import ListNotations.
Open Scope Z_scope.

(** bank.rs: the seeds are the token index and the bank number *)
Record rbank := mkRB { rb_index : Z; rb_num : Z; rb_mint : Z }.
(** mint_info.rs; [mi_banks]: the bank addresses in use, MAX_BANKS = 6 *)
Record minfo := mkMI { mi_mint : Z; mi_index : Z; mi_banks : list (Z * Z) }.
(** state/serum3_market.rs *)
Record smarket := mkSM { sm_ext : Z; sm_index : Z; sm_base : Z; sm_quote : Z; sm_band : Z }.
Record reg := mkReg { r_banks : list rbank; r_mints : list minfo; r_markets : list smarket; r_reserved : list Z; r_perps : list (Z * Z) }.
Definition reg0 : reg := mkReg [] [] [] [] [].

Definition at_key (i k : Z) (b : rbank) : bool := (rb_index b =? i) && (rb_num b =? k).
Definition bank_at (L : list rbank) (i k : Z) : option rbank := find (at_key i k) L.
Definition info_of (L : list minfo) (m : Z) : option minfo := find (fun x => mi_mint x =? m) L.
Definition market_at (L : list smarket) (e : Z) : option smarket := find (fun x => sm_ext x =? e) L.
Definition perp_at (L : list (Z * Z)) (i : Z) : option (Z * Z) := find (fun x => fst x =? i) L.
Definition free {A} (x : option A) : bool := match x with Some _ => false | None => true end.

(** token_register.rs:47-175, token_register_trustless.rs:20-160; [TokenIndex::MAX] = 65535, [QUOTE_TOKEN_INDEX] = 0 *)
Definition token_register (trustless : bool) (s : reg) (i m : Z) : option reg :=
  let* _ := guard (negb (trustless && (i =? 0)) && negb (i =? 65535)) in
  let* _ := guard (free (bank_at (r_banks s) i 0) && free (info_of (r_mints s) m)) in
  Some (mkReg (mkRB i 0 m :: r_banks s) (mkMI m i [(i, 0)] :: r_mints s) (r_markets s) (r_reserved s) (r_perps s)).
(** token_add_bank.rs:7-30; [k]: the number of the existing bank that is passed, [n]: the new number; the position of the first unused slot is the number of banks *)
Definition token_add_bank (testing : bool) (s : reg) (i k n m : Z) : option reg :=
  let* _ := guard testing in
  let* b := bank_at (r_banks s) i k in
  let* _ := guard (rb_mint b =? m) in
  let* x := info_of (r_mints s) m in
  let* _ := guard (mi_index x =? i) in
  let* _ := guard (free (bank_at (r_banks s) i n)) in
  let slot := Z.of_nat (length (mi_banks x)) in
  let* _ := guard ((slot <? 6) && (n =? slot)) in
  Some (mkReg (mkRB i n (rb_mint b) :: r_banks s)
    (map (fun y => if mi_mint y =? m then mkMI (mi_mint y) (mi_index y) (mi_banks y ++ [(i, n)]) else y) (r_mints s)) (r_markets s) (r_reserved s) (r_perps s)).
(** token_deregister.rs:11-80: all banks of the mint info are closed *)
Definition token_deregister (testing : bool) (s : reg) (m : Z) : option reg :=
  let* _ := guard testing in
  let* x := info_of (r_mints s) m in
  let closed b := existsb (fun '(i, k) => at_key i k b) (mi_banks x) in
  Some (mkReg (filter (fun b => negb (closed b)) (r_banks s)) (filter (fun y => negb (mi_mint y =? m)) (r_mints s)) (r_markets s) (r_reserved s) (r_perps s)).
(** serum3_register_market.rs:11-85; [coin], [pc]: the mints of the external market; the two banks are given by index and number; [fast]: the signer is the
    fast listing admin; [c_tier]: the base bank has no borrows and no asset weight, and the quote bank no deposit limits *)
Definition serum3_register_market (coin pc : Z -> Z) (fast c_tier : bool) (s : reg) (ext i bi bk qi qk band : Z) : option reg :=
  let* b := bank_at (r_banks s) bi bk in
  let* q := bank_at (r_banks s) qi qk in
  let* _ := guard ((pc ext =? rb_mint q) && (coin ext =? rb_mint b)) in
  let* _ := guard (negb fast || (band =? if c_tier then 19 else 1)) in
  let* _ := guard (free (market_at (r_markets s) ext) && negb (existsb (Z.eqb i) (r_reserved s))) in
  Some (mkReg (r_banks s) (r_mints s) (mkSM ext i (rb_index b) (rb_index q) band :: r_markets s) (i :: r_reserved s) (r_perps s)).
Definition serum3_deregister_market (testing : bool) (s : reg) (ext i : Z) : option reg :=
  let* _ := guard testing in
  let* x := market_at (r_markets s) ext in
  let* _ := guard ((sm_index x =? i) && existsb (Z.eqb i) (r_reserved s)) in
  Some (mkReg (r_banks s) (r_mints s) (filter (fun y => negb (sm_ext y =? ext)) (r_markets s)) (filter (fun j => negb (j =? i)) (r_reserved s)) (r_perps s)).
(** perp_create_market.rs, perp_close_market.rs; the settle token is not looked at *)
Definition perp_create_market (s : reg) (i settle : Z) : option reg :=
  let* _ := guard (free (perp_at (r_perps s) i)) in
  Some (mkReg (r_banks s) (r_mints s) (r_markets s) (r_reserved s) ((i, settle) :: r_perps s)).
Definition perp_close_market (testing : bool) (s : reg) (i : Z) : option reg :=
  let* _ := guard testing in
  let* _ := perp_at (r_perps s) i in
  Some (mkReg (r_banks s) (r_mints s) (r_markets s) (r_reserved s) (filter (fun x => negb (fst x =? i)) (r_perps s))).

Inductive rop :=
  | RRegister (trustless : bool) (i m : Z) | RAddBank (i k n m : Z) | RDeregister (m : Z)
  | RMarket (fast c_tier : bool) (ext i bi bk qi qk band : Z) | RUnmarket (ext i : Z)
  | RPerp (i settle : Z) | RUnperp (i : Z).
Definition rstep (coin pc : Z -> Z) (s : reg) (testing : bool) (o : rop) : option reg :=
  match o with
  | RRegister t i m => token_register t s i m
  | RAddBank i k n m => token_add_bank testing s i k n m
  | RDeregister m => token_deregister testing s m
  | RMarket f c e i bi bk qi qk band => serum3_register_market coin pc f c s e i bi bk qi qk band
  | RUnmarket e i => serum3_deregister_market testing s e i
  | RPerp i t => perp_create_market s i t
  | RUnperp i => perp_close_market testing s i
  end.
(** a history: failed instructions change nothing; the admin may change the testing flag between them *)
Fixpoint rrun (coin pc : Z -> Z) (s : reg) (H : list (bool * rop)) : reg :=
  match H with
  | [] => s
  | (t, o) :: H' => rrun coin pc (match rstep coin pc s t o with Some s' => s' | None => s end) H'
  end.
