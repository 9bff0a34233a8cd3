(** Transactions: flash loans (instructions/flash_loan.rs) and health regions
    (instructions/health_region.rs), which look at the other instructions of the
    transaction.

    Public keys are numbers.  [None] is an error or panic; it fails the whole
    transaction.  Not modelled: instruction data beyond the fields below, signatures
    (the [owner] account of an instruction has signed, Anchor's [Signer]), the
    authority check of token transfers (so more transfers succeed than in reality),
    log output. *)
From Coq Require Import List ZArith Lia Bool Arith.
From Verif Require Import Keys Fixed PerpTypes Interest Bank BankSystem LiqState.
Import ListNotations.
Open Scope Z_scope.

(** ** programs (flash_loan.rs:139-151, accounts_ix/flash_loan.rs:7-19) *)
Definition MANGO : Z := 1.
Definition delegate_programs : list Z := [2 (* ATA *); 3; 4; 5 (* jupiter v3, v4, v6 *); 6 (* compute budget *); MANGO].

(** instruction discriminators; [OtherIx] stands for every other mango instruction *)
Inductive ixname :=
| FlashLoanBegin | FlashLoanSwapBegin | FlashLoanEnd | FlashLoanEndV2
| HealthRegionBegin | HealthRegionEnd
| PerpCancelAllOrders | PerpCancelAllOrdersBySide | PerpCancelOrder | PerpCancelOrderByClientOrderId
| PerpPlaceOrder | PerpPlaceOrderV2 | PerpPlaceOrderPegged | PerpPlaceOrderPeggedV2
| Serum3CancelAllOrders | Serum3CancelOrder | Serum3PlaceOrder | Serum3PlaceOrderV2
| Serum3SettleFunds | Serum3SettleFundsV2
| OtherIx (n : Z).

(** health_region.rs:14-30 *)
Definition allowed_inner (n : ixname) : bool :=
  match n with
  | PerpCancelAllOrders | PerpCancelAllOrdersBySide | PerpCancelOrder | PerpCancelOrderByClientOrderId
  | PerpPlaceOrder | PerpPlaceOrderV2 | PerpPlaceOrderPegged | PerpPlaceOrderPeggedV2
  | Serum3CancelAllOrders | Serum3CancelOrder | Serum3PlaceOrder | Serum3PlaceOrderV2
  | Serum3SettleFunds | Serum3SettleFundsV2 => true
  | _ => false
  end.

(** A top-level instruction of a transaction, or a call of a program by another
    program.  [i_args] of the flash loan instructions: the loan amounts; of
    FlashLoanEndV2: the number of loans and the type. *)
Record ix := mkIx { i_prog : Z; i_name : ixname; i_args : list Z; i_accts : list Z }.

(** ** state *)
(** SPL token accounts *)
Record tacc := mkTacc { ta_mint : Z; ta_owner : Z; ta_amount : Z }.
(** bank.rs:29-225; [fb_bank] holds the balances; [fb_swap_rate] is
    [I80F48::from_num(flash_loan_swap_fee_rate)] *)
Record fbank := mkFb {
  fb_group : Z; fb_vault : Z; fb_mint : Z; fb_index : Z;
  fb_approved : Z;      (* flash_loan_approved_amount : u64 *)
  fb_initial : Z;       (* flash_loan_token_account_initial : u64 *)
  fb_swap_rate : fx; fb_bank : bank }.
(** mango_account.rs:99-190; [m_toks] are the active token positions by token index,
    [m_cap] the number of slots (AccountSlots.v has the slots themselves) *)
Record macc := mkMacc {
  m_group : Z; m_owner : Z; m_delegate : Z; m_tdelegate : Z; m_texpiry : Z; m_frozen : Z;
  m_liq : bool; m_region : bool; m_region_health : Z; m_cap : nat; m_toks : list (Z * tpos) }.
(** group.rs: the two gates *)
Record grp := mkGrp { g_flash : bool; g_region : bool }.
Record world := mkW {
  w_banks : Z -> option fbank; w_accts : Z -> option macc; w_tokens : Z -> option tacc;
  w_groups : Z -> option grp; w_now : Z }.

Definition put {A} (f : Z -> option A) (k : Z) (v : A) : Z -> option A := fun x => if x =? k then Some v else f x.
Definition put_bank (w : world) (k : Z) (b : fbank) : world :=
  mkW (put (w_banks w) k b) (w_accts w) (w_tokens w) (w_groups w) (w_now w).
Definition put_acct (w : world) (k : Z) (a : macc) : world :=
  mkW (w_banks w) (put (w_accts w) k a) (w_tokens w) (w_groups w) (w_now w).
Definition set_tokens (w : world) (t : Z -> option tacc) : world :=
  mkW (w_banks w) (w_accts w) t (w_groups w) (w_now w).
Definition set_flash (b : fbank) (approved initial : Z) : fbank :=
  mkFb (fb_group b) (fb_vault b) (fb_mint b) (fb_index b) approved initial (fb_swap_rate b) (fb_bank b).
Definition set_fbank (b : fbank) (x : bank) : fbank :=
  mkFb (fb_group b) (fb_vault b) (fb_mint b) (fb_index b) (fb_approved b) (fb_initial b) (fb_swap_rate b) x.
Definition set_toks (a : macc) (l : list (Z * tpos)) : macc :=
  mkMacc (m_group a) (m_owner a) (m_delegate a) (m_tdelegate a) (m_texpiry a) (m_frozen a) (m_liq a) (m_region a)
    (m_region_health a) (m_cap a) l.
Definition set_liq (a : macc) (f : bool) : macc :=
  mkMacc (m_group a) (m_owner a) (m_delegate a) (m_tdelegate a) (m_texpiry a) (m_frozen a) f (m_region a)
    (m_region_health a) (m_cap a) (m_toks a).
Definition set_region (a : macc) (f : bool) (h : Z) : macc :=
  mkMacc (m_group a) (m_owner a) (m_delegate a) (m_tdelegate a) (m_texpiry a) (m_frozen a) (m_liq a) f h (m_cap a) (m_toks a).

(** mango_account.rs:355-375 *)
Definition is_operational (w : world) (a : macc) : bool := m_frozen a <? w_now w.
Definition is_delegate (w : world) (a : macc) (s : Z) : bool :=
  (m_delegate a =? s) || (negb (m_texpiry a <? w_now w) && (m_tdelegate a =? s)).
Definition is_owner_or_delegate (w : world) (a : macc) (s : Z) : bool := (m_owner a =? s) || is_delegate w a s.

(** spl token transfer *)
Definition transfer (w : world) (from to amount : Z) : option world :=
  let* f := w_tokens w from in
  let* _ := guard (amount <=? ta_amount f) in
  let t1 := put (w_tokens w) from (mkTacc (ta_mint f) (ta_owner f) (ta_amount f - amount)) in
  let* t := t1 to in
  let* _ := guard (ta_mint t =? ta_mint f) in
  Some (set_tokens w (put t1 to (mkTacc (ta_mint t) (ta_owner t) (ta_amount t + amount)))).

(** ** what the instructions read from oracles and health accounts: arbitrary
    functions of the state *)
Record env := mkEnv {
  (* init and liquidation-end health of the account with this key, from the given
     health accounts; [None]: the computation fails *)
  e_health : ixname -> list Z -> world -> Z -> option (fx * fx);
  (* oracle price of the bank with this key; [None]: stale, uncertain or missing *)
  e_price : world -> Z -> option fx }.

(** ** flash_loan_begin *)
(** flash_loan.rs:67-117 *)
Fixpoint begin_loans (w : world) (group : Z) (seen : list Z) (L : list (Z * Z * Z * Z)) : option world :=
  match L with
  | [] => Some w
  | (bk, vk, tk, amount) :: L' =>
      let* _ := guard ((0 <=? amount) && (amount <=? U64_MAX)) in   (* a u64 *)
      let* b := w_banks w bk in
      let* _ := guard ((fb_group b =? group) && (fb_vault b =? vk)) in
      let* _ := guard (negb (existsb (Z.eqb (fb_index b)) seen)) in
      let* v := w_tokens w vk in
      let* t := w_tokens w tk in
      let* _ := guard ((ta_mint t =? fb_mint b) && negb (ta_owner t =? group)) in
      let* _ := guard ((fb_approved b =? 0) && (fb_initial b =? U64_MAX)) in
      let w1 := put_bank w bk (set_flash b amount (ta_amount t)) in
      let* w2 := (if 0 <? amount
                  then let* _ := guard (amount <=? ta_amount v) in transfer w1 vk tk amount
                  else Some w1) in
      begin_loans w2 group (fb_index b :: seen) L'
  end.

Fixpoint list_eqb (l1 l2 : list Z) : bool :=
  match l1, l2 with
  | [], [] => true
  | x :: r1, y :: r2 => (x =? y) && list_eqb r1 r2
  | _, _ => false
  end.
(** the last [n] entries; panics when there are fewer *)
Definition last_n (n : nat) (l : list Z) : option (list Z) :=
  if Nat.leb n (length l) then Some (skipn (length l - n) l) else None.

(** flash_loan.rs:134-191: [rest] are the top-level instructions that follow *)
Fixpoint scan_flash (delegate : bool) (acct : Z) (n : nat) (trail : list Z) (rest : list ix) : bool :=
  match rest with
  | [] => false
  | i :: r =>
      if delegate && negb (existsb (Z.eqb (i_prog i)) delegate_programs) then false
      else if i_prog i =? MANGO then
        match i_name i with
        | FlashLoanEndV2 =>
            match nth_error (i_args i) 0, nth_error (i_accts i) 0, last_n (length trail) (i_accts i) with
            | Some m, Some a, Some l => (m =? Z.of_nat n) && (a =? acct) && list_eqb trail l
            | _, _, _ => false
            end
        | _ => false
        end
      else if existsb (Z.eqb MANGO) (i_accts i) then false
      else scan_flash delegate acct n trail r
  end.

(** flash_loan.rs:19-194; [tx] the top-level instructions, [pos] the current one;
    [rem] the remaining accounts *)
Definition flash_begin (tx : list ix) (pos : nat) (w : world) (acct owner : Z) (amounts rem : list Z) : option world :=
  let n := length amounts in
  let* _ := guard (Nat.ltb 0 n) in
  let* a := w_accts w acct in
  let* _ := guard (is_operational w a) in
  let* _ := guard (is_owner_or_delegate w a owner) in
  let* _ := guard (Nat.eqb (length rem) (3 * n + 1)) in
  let banks := firstn n rem in
  let vaults := firstn n (skipn n rem) in
  let tokens := firstn n (skipn (2 * n) rem) in
  let* group := nth_error rem (3 * n) in
  let* g := w_groups w group in
  let* _ := guard (g_flash g) in
  let* w1 := begin_loans w group [] (combine (combine (combine banks vaults) tokens) amounts) in
  let* cur := nth_error tx pos in
  let* _ := guard (i_prog cur =? MANGO) in
  let* _ := guard (scan_flash (is_delegate w a owner) acct n (skipn n rem) (skipn (S pos) tx)) in
  Some w1.

(** ** flash_loan_end *)
Record change := mkCh { c_bank : Z; c_index : Z; c_vault : nat; c_amount : fx }.
Fixpoint find_index (k : Z) (l : list Z) : option nat :=
  match l with [] => None | x :: r => if x =? k then Some O else option_map S (find_index k r) end.
(** mango_account.rs ensure_token_position *)
Definition ensure_pos (a : macc) (t : Z) : option macc :=
  match pos_get (m_toks a) t with
  | Some _ => Some a
  | None => if Nat.ltb (length (m_toks a)) (m_cap a) then Some (set_toks a (m_toks a ++ [(t, mkTpos 0 0)])) else None
  end.

(** flash_loan.rs:301-369: the banks among the health accounts, up to the first
    account that is not a bank *)
Fixpoint end_scan (w : world) (a : macc) (group : Z) (vaults tokens : list Z) (rate : fx) (ais : list Z)
  : option (world * macc * fx * list change) :=
  match ais with
  | [] => Some (w, a, rate, [])
  | k :: ais' =>
      match w_banks w k with
      | None => Some (w, a, rate, [])
      | Some b =>
          let* _ := guard (fb_group b =? group) in
          match find_index (fb_vault b) vaults with
          | None => end_scan w a group vaults tokens rate ais'
          | Some vi =>
              let* tk := nth_error tokens vi in
              let* t := w_tokens w tk in
              let* _ := guard (ta_mint t =? fb_mint b) in
              let* _ := guard (negb (fb_initial b =? U64_MAX)) in
              let* a1 := ensure_pos a (fb_index b) in
              let repay := ta_amount t - fb_initial b in
              let* w1 := (if 0 <? repay then transfer w tk (fb_vault b) repay else Some w) in
              let ch := - of_int (fb_approved b) + (if 0 <? repay then of_int repay else 0) in
              let* (w2, a2, rate2, L) := end_scan w1 a1 group vaults tokens (Z.max rate (fb_swap_rate b)) ais' in
              Some (w2, a2, rate2, mkCh k (fb_index b) vi ch :: L)
          end
      end
  end.

(** accounts_ix/flash_loan.rs:108-120 *)
Inductive loan_type := LUnknown | LSwap | LSwapWithoutFee.
Definition loan_type_of (z : Z) : option loan_type :=
  if z =? 0 then Some LUnknown else if z =? 1 then Some LSwap else if z =? 2 then Some LSwapWithoutFee else None.

(** flash_loan.rs:436-452 *)
Definition loan_fee (b : fbank) (nat_ : fx) : fx :=
  let approved := of_int (fb_approved b) in
  fmul (if 0 <? nat_ then Z.max (approved - nat_) 0 else approved) (b_lof (fb_bank b)).
Definition swap_fee (ty : loan_type) (rate amount : fx) : fx :=
  match ty with LSwap => if amount <? 0 then fmul (- amount) rate else 0 | _ => 0 end.

(** flash_loan.rs:426-496: one change; also says whether the position is to be
    deactivated *)
Definition apply_change (w : world) (a : macc) (ty : loan_type) (rate : fx) (c : change) (price : fx)
  : option (world * macc * bool) :=
  let* b := w_banks w (c_bank c) in
  let* p := pos_get (m_toks a) (c_index c) in
  let n := native (fb_bank b) p in
  let lof := loan_fee b n in
  let sf := swap_fee ty rate (c_amount c) in
  let x := fb_bank b in
  let x1 := set_totals x (b_dep x) (b_bor x) (b_dust x) (b_fees x + lof + sf) in
  let amount := c_amount c - lof - sf in
  let after := n + amount in
  let* _ := guard (negb (deposits_reduce_only x1) || (after <? fone) || (after <=? n)) in
  let* _ := guard (negb (borrows_reduce_only x1) || (n <=? after) || (0 <=? after)) in
  let* (x2, p2, act) := change_without_fee x1 p amount (w_now w) in
  let* _ := (if (amount <? 0) && (after <? 0)
             then guard (enforce_max_utilization x2 (b_max_util x2) && check_net_borrows x2 price)
             else guard (enforce_max_utilization x2 fone)) in
  let* _ := (if (0 <? amount) && (0 <? after) then guard (check_deposit_and_oo_limit x2) else Some tt) in
  Some (put_bank w (c_bank c) (set_flash (set_fbank b x2) 0 U64_MAX),
        set_toks a (pos_set (m_toks a) (c_index c) p2), act).
(** the changes in turn; returns the tokens whose positions are to be deactivated *)
Fixpoint apply_changes (w : world) (a : macc) (ty : loan_type) (rate : fx) (L : list (change * fx))
  : option (world * macc * list Z) :=
  match L with
  | [] => Some (w, a, [])
  | (c, price) :: L' =>
      let* (w1, a1, act) := apply_change w a ty rate c price in
      let* (w2, a2, D) := apply_changes w1 a1 ty rate L' in
      Some (w2, a2, if act then D else c_index c :: D)
  end.
(** mango_account.rs:1028-1031 *)
Fixpoint deactivate_all (l : list (Z * tpos)) (D : list Z) : option (list (Z * tpos)) :=
  match D with
  | [] => Some l
  | t :: D' =>
      let* _ := (match pos_get l t with Some p => guard (t_use p =? 0) | None => Some tt end) in
      deactivate_all (pos_del l t) D'
  end.
Fixpoint prices (e : env) (w : world) (L : list change) : option (list fx) :=
  match L with
  | [] => Some []
  | c :: L' => let* p := e_price e w (c_bank c) in let* r := prices e w L' in Some (p :: r)
  end.

(** flash_loan.rs:246-540 *)
Definition flash_end (e : env) (w : world) (acct owner : Z) (args rem : list Z) : option world :=
  match args with
  | [nz; tyz] =>
      let* ty := loan_type_of tyz in
      let* _ := guard (0 <? nz) in
      let n := Z.to_nat nz in
      let* a := w_accts w acct in
      let* _ := guard (is_operational w a) in
      let* _ := guard (is_owner_or_delegate w a owner) in
      let* _ := guard (Nat.leb (2 * n + 1) (length rem)) in
      let* g := nth_error rem (length rem - 1) in
      let* _ := guard (g =? m_group a) in
      let vi := (length rem - 2 * n - 1)%nat in
      let ais := firstn vi rem in
      let vaults := firstn n (skipn vi rem) in
      let tokens := firstn n (skipn (vi + n) rem) in
      let* (w1, a1, rate, L) := end_scan w a (m_group a) vaults tokens 0 ais in
      let* _ := guard (forallb (fun i => existsb (fun c => Nat.eqb (c_vault c) i) L) (seq 0 n)) in
      let* _ := guard (match ty with LUnknown => true | _ => Nat.eqb (length L) 2 end) in
      let* (init, liq_end) := e_health e FlashLoanEndV2 ais (put_acct w1 acct a1) acct in
      let* f := pre_check (m_liq a1) init liq_end in
      let* ps := prices e (put_acct w1 acct a1) L in
      let* (w2, a2, D) := apply_changes w1 (set_liq a1 f) ty rate (combine L ps) in
      let* (post, _) := e_health e FlashLoanEndV2 ais (put_acct w2 acct a2) acct in
      let* _ := guard (post_check init post) in
      let* toks := deactivate_all (m_toks a2) D in
      Some (put_acct w2 acct (set_toks a2 toks))
  | _ => None
  end.

(** ** health regions *)
(** health_region.rs:47-76 *)
Fixpoint scan_region (acct : Z) (rest : list ix) : bool :=
  match rest with
  | [] => false
  | i :: r =>
      if negb (i_prog i =? MANGO) then false
      else match i_name i with
           | HealthRegionEnd => match nth_error (i_accts i) 0 with Some a => a =? acct | None => false end
           | n => allowed_inner n && scan_region acct r
           end
  end.
(** health_region.rs:10-96 and accounts_ix/health_region.rs:6-30 *)
Definition region_begin (e : env) (tx : list ix) (pos : nat) (w : world) (group acct : Z) (rem : list Z) : option world :=
  let* g := w_groups w group in
  let* _ := guard (g_region g) in
  let* a := w_accts w acct in
  let* _ := guard ((m_group a =? group) && is_operational w a) in
  let* cur := nth_error tx pos in
  let* _ := guard (i_prog cur =? MANGO) in
  let* _ := guard (scan_region acct (skipn (S pos) tx)) in
  let* _ := guard (negb (m_region a)) in
  let* (init, liq_end) := e_health e HealthRegionBegin rem w acct in
  let* f := pre_check (m_liq a) init liq_end in
  let* h := chk_i64 (ceil_int init) in
  Some (put_acct w acct (set_region (set_liq a f) true h)).
(** health_region.rs:98-118 *)
Definition region_end (e : env) (w : world) (acct : Z) (rem : list Z) : option world :=
  let* a := w_accts w acct in
  let* _ := guard (is_operational w a) in
  let* _ := guard (m_region a) in
  let* (init, _) := e_health e HealthRegionEnd rem w acct in
  let* _ := guard (post_check (of_int (m_region_health a)) init) in
  Some (put_acct w acct (set_region a false 0)).

(** ** all other mango instructions *)
Definition same_flash (b b' : fbank) : Prop :=
  fb_group b' = fb_group b /\ fb_vault b' = fb_vault b /\ fb_mint b' = fb_mint b /\ fb_index b' = fb_index b /\
  fb_approved b' = fb_approved b /\ fb_initial b' = fb_initial b.
(** Each bank has its own vault: the vault's address is derived from the group, the
    token index and the bank number like the bank's own (accounts_ix/token_register.rs:20-40,
    token_add_bank.rs). *)
Definition own_vaults (w : world) : Prop :=
  forall k1 k2 b1 b2, w_banks w k1 = Some b1 -> w_banks w k2 = Some b2 -> fb_vault b1 = fb_vault b2 -> k1 = k2.
(** Any instruction but the above: it may change everything except the flash loan and
    health region fields, and create and close banks and accounts (token_register.rs:85,
    bank.rs:321 and mango_account.rs:199 initialize the fields; a search of the source
    shows no other writes). *)
Definition other (w w' : world) : Prop :=
  (forall k b', w_banks w' k = Some b' ->
     (exists b, w_banks w k = Some b /\ same_flash b b') \/ (w_banks w k = None /\ fb_approved b' = 0 /\ fb_initial b' = U64_MAX)) /\
  (forall k a', w_accts w' k = Some a' ->
     (exists a, w_accts w k = Some a /\ m_region a' = m_region a /\ m_region_health a' = m_region_health a)
     \/ (w_accts w k = None /\ m_region a' = false)) /\
  own_vaults w' /\ w_now w' = w_now w.
(** the instructions allowed in health regions do not close accounts *)
Definition inner (w w' : world) : Prop :=
  other w w' /\ forall k a, w_accts w k = Some a -> w_accts w' k <> None.

(** ** running *)
(** a call of the mango program, top-level or from another program, while the
    top-level instruction [pos] is running *)
Inductive exec (e : env) (tx : list ix) (pos : nat) (w : world) (i : ix) (w' : world) : Prop :=
| x_flash_begin acct owner tp ins rem :
    i_name i = FlashLoanBegin -> i_accts i = acct :: owner :: tp :: ins :: rem ->
    flash_begin tx pos w acct owner (i_args i) rem = Some w' -> exec e tx pos w i w'
  (* flash_loan.rs:197-241; creating missing associated token accounts is part of [toks] *)
| x_flash_swap acct owner m1 m2 sp tp ap ins rem amount toks :
    i_name i = FlashLoanSwapBegin -> i_accts i = acct :: owner :: m1 :: m2 :: sp :: tp :: ap :: ins :: rem ->
    i_args i = [amount] -> length rem = 7%nat ->
    flash_begin tx pos (set_tokens w toks) acct owner [amount; 0] rem = Some w' -> exec e tx pos w i w'
| x_flash_end acct owner tp rem :
    i_name i = FlashLoanEndV2 -> i_accts i = acct :: owner :: tp :: rem ->
    flash_end e w acct owner (i_args i) rem = Some w' -> exec e tx pos w i w'
| x_region_begin ins group acct rem :
    i_name i = HealthRegionBegin -> i_accts i = ins :: group :: acct :: rem ->
    region_begin e tx pos w group acct rem = Some w' -> exec e tx pos w i w'
| x_region_end acct rem :
    i_name i = HealthRegionEnd -> i_accts i = acct :: rem ->
    region_end e w acct rem = Some w' -> exec e tx pos w i w'
| x_inner : allowed_inner (i_name i) = true -> inner w w' -> exec e tx pos w i w'
| x_other n : i_name i = OtherIx n -> other w w' -> exec e tx pos w i w'.

(** a top-level instruction of another program: it may change token accounts, and
    call mango if the mango program is among its accounts (a rule of the Solana
    runtime) *)
Inductive foreign (e : env) (tx : list ix) (pos : nat) (i : ix) : world -> world -> Prop :=
| f_done w : foreign e tx pos i w w
| f_tokens w toks w' : foreign e tx pos i (set_tokens w toks) w' -> foreign e tx pos i w w'
| f_call w c w1 w' : In MANGO (i_accts i) -> exec e tx pos w c w1 -> foreign e tx pos i w1 w' -> foreign e tx pos i w w'.

(** the instruction at [pos] *)
Inductive tx_step (e : env) (tx : list ix) (pos : nat) (w w' : world) : Prop :=
| s_mango i : nth_error tx pos = Some i -> i_prog i = MANGO -> exec e tx pos w i w' -> tx_step e tx pos w w'
| s_foreign i : nth_error tx pos = Some i -> i_prog i <> MANGO -> foreign e tx pos i w w' -> tx_step e tx pos w w'.
(** the instructions from [p] up to but excluding [q] *)
Inductive steps (e : env) (tx : list ix) : nat -> nat -> world -> world -> Prop :=
| st_nil p w : steps e tx p p w w
| st_cons p q w w1 w' : tx_step e tx p w w1 -> steps e tx (S p) q w1 w' -> steps e tx p q w w'.
(** an accepted transaction *)
Definition accepted (e : env) (tx : list ix) (w w' : world) : Prop := steps e tx 0 (length tx) w w'.
