(** Oracle prices: reading the supported oracle accounts, staleness and confidence
    checks, fallback oracles, and the account retrievers that feed the health
    computation.  Models src/state/oracle.rs, src/state/amm_cpi.rs,
    src/state/bank.rs [oracle_price], src/state/perp_market.rs [oracle_price] and
    src/health/account_retriever.rs.
    Simplifications: public keys are integers; the recognition of an oracle account by
    magic number, discriminator or owner (oracle.rs:212-248) and the decoding of its
    bytes are represented by the constructor of [odata]; values that the code gets as
    f64 (Switchboard results, inverted pool prices) enter as the fixed point number
    they are converted to, [None] when the conversion or the feed fails.
    [None] as result: the call fails or panics. *)
From Coq Require Import List ZArith Lia Bool.
From Verif Require Import Fixed Interest Bank.
Import ListNotations.
Open Scope Z_scope.

(** I80F48 range: operations outside it panic *)
Definition chk_fx (x : Z) : option fx := if (- 2 ^ 127 <=? x) && (x <? 2 ^ 127) then Some x else None.
Definition in_u64b (x : Z) : bool := (0 <=? x) && (x <=? U64_MAX).
(** [i32 as i8] *)
Definition as_i8 (x : Z) : Z := (x + 128) mod 256 - 128.
Definition chk_i8 (x : Z) : option Z := if (-128 <=? x) && (x <=? 127) then Some x else None.

(** oracle.rs:17-48 [DECIMAL_CONSTANTS], [power_of_ten] *)
Definition bump (n : Z) : Z :=   (* the "+ 1" of the table, for 10^-n *)
  if (n =? 12) || (n =? 10) || (n =? 5) || (n =? 4) then 0 else 1.
Definition power_of_ten (d : Z) : option fx :=
  if (-12 <=? d) && (d <=? 12)
  then Some (if 0 <=? d then fone * 10 ^ d else fone / 10 ^ (- d) + bump (- d))
  else None.

(** oracle.rs:134-141 *)
Record ostate := mkOs { os_price : fx; os_dev : fx; os_slot : Z; os_time : option Z }.
(** oracle.rs:93-99: [cf_stale] is max_staleness_slots : i64 *)
Record ocfg := mkCfg { cf_conf : fx; cf_stale : Z }.

(** oracle.rs:156-187 [check_staleness]: [Some false] is OracleStale, [None] a panic *)
Definition check_staleness (s : ostate) (c : ocfg) (now_slot now_ts : Z) : option bool :=
  if cf_stale c <? 0 then Some true
  else if Z.min U64_MAX (os_slot s + cf_stale c) <? now_slot then Some false
  else match os_time s with
       | None => Some true
       | Some t =>
           let* _ := guard (in_u64b (now_ts * 1000) && in_u64b (t * 1000) && in_u64b (cf_stale c * 450)) in
           Some (negb (t * 1000 <? Z.max 0 (now_ts * 1000 - cf_stale c * 450)))
       end.
(** oracle.rs:189-194 [check_confidence] *)
Definition check_confidence (s : ostate) (c : ocfg) : option bool :=
  let* lim := chk_fx (fmul (cf_conf c) (os_price s)) in
  Some (negb (lim <? os_dev s)).
(** oracle.rs:145-154; [now] is (now_ts, now_slot) *)
Definition check_state (s : ostate) (c : ocfg) (now : option (Z * Z)) : option bool :=
  let* fresh := match now with Some (ts, slot) => check_staleness s c slot ts | None => Some true end in
  if fresh then check_confidence s c else Some false.

(** ** oracle accounts *)
Record pquote := mkPq { pq_price : Z; pq_conf : Z; pq_slot : Z }.   (* i64, u64, u64 *)
Inductive odata :=
| OdStub (price dev : fx) (slot : Z)
| OdPyth (trading : bool) (agg prev : pquote) (expo : Z)
| OdPythV2 (full : bool) (q : pquote) (expo publish_time : Z)
| OdSwitchboard (value : option (fx * fx)) (slot : Z)            (* V1, V2, on demand *)
| OdPool (sqrt_price : Z) (inverted_price : option fx) (mint_a mint_b : Z).   (* Orca, Raydium *)

(** price feeds of USDC and SOL, their mints: fixed keys (oracle.rs:74-92) *)
Definition USDC_FEED : Z := -1.
Definition SOL_FEED : Z := -2.
Definition USDC_MINT : Z := -3.
Definition SOL_MINT : Z := -4.
Definition NO_KEY : Z := 0.            (* Pubkey::default() *)
Definition QUOTE_DECIMALS : Z := 6.

Record bkinfo := mkBk { bk_group : Z; bk_token : Z; bk_oracle : Z; bk_fallback : Z; bk_cfg : ocfg; bk_decimals : Z }.
Record pminfo := mkPm { pm_group : Z; pm_index : Z; pm_oracle : Z; pm_cfg : ocfg; pm_decimals : Z }.
(** content of an account: a bank or perp market of this program, an open orders
    account of the spot exchange, an oracle, anything else *)
Inductive content := CBank (b : bkinfo) | CPerp (m : pminfo) | COpenOrders | COracle (o : odata) | COther.
Record ainfo := mkAi { a_key : Z; a_data : content }.

Record oinfos := mkOi { oi_oracle : ainfo; oi_fallback : option ainfo; oi_usdc : option ainfo; oi_sol : option ainfo }.
(** oracle.rs:352-360 *)
Definition from_reader (a : ainfo) : oinfos := mkOi a None None None.

(** oracle.rs:279-344; the i8 sum panics on overflow *)
Definition scaled (q : pquote) (expo base : Z) (time : option Z) : option ostate :=
  let* d := chk_i8 (as_i8 expo + QUOTE_DECIMALS) in
  let* d := chk_i8 (d - base) in
  let* adj := power_of_ten d in
  let* price := chk_fx (fmul (of_int (pq_price q)) adj) in
  let* dev := chk_fx (fmul (of_int (pq_conf q)) adj) in
  let* _ := guard (0 <=? price) in
  Some (mkOs price dev (pq_slot q) time).
Definition pyth_state (o : content) (base : Z) : option ostate :=
  match o with
  | COracle (OdPyth trading agg prev expo) => scaled (if trading then agg else prev) expo base None
  | _ => None
  end.

(** amm_cpi.rs:35-55 *)
Definition is_inverted (a b : Z) : bool := (a =? USDC_MINT) || ((a =? SOL_MINT) && negb (b =? USDC_MINT)).
Definition clmm_price (sqrt : Z) (inv : option fx) (a b : Z) : option fx :=
  if is_inverted a b then inv
  else let p := sqrt * sqrt / 2 ^ 64 in                (* U64F64 *)
       let* _ := guard (p <? 2 ^ 128) in Some (p / 2 ^ 16).
(** amm_cpi.rs:57-88 *)
Definition quote_state (i : oinfos) (a b : Z) : option ostate :=
  let mint := if is_inverted a b then a else b in
  if mint =? USDC_MINT then let* f := oi_usdc i in pyth_state (a_data f) 6
  else if mint =? SOL_MINT then let* f := oi_sol i in pyth_state (a_data f) 9
  else None.

(** oracle.rs:384-536 [oracle_state_unchecked_inner] *)
Definition oracle_state (i : oinfos) (base : Z) (use_fallback : bool) : option ostate :=
  let* acc := (if use_fallback then oi_fallback i else Some (oi_oracle i)) in
  match a_data acc with
  | COracle o =>
      match o with
      | OdStub price dev slot =>
          Some (mkOs price (if dev =? 0 then - 2 ^ 127 else dev) (if slot =? 0 then U64_MAX else slot) None)
      | OdPyth _ _ _ _ => pyth_state (COracle o) base
      | OdPythV2 full q expo time => let* _ := guard full in scaled q expo base (Some (time mod 2 ^ 64))
      | OdSwitchboard v slot =>
          let* (ui_price, ui_dev) := v in
          let* d := chk_i8 (QUOTE_DECIMALS - base) in
          let* adj := power_of_ten d in
          let* price := chk_fx (fmul ui_price adj) in
          let* dev := chk_fx (fmul ui_dev adj) in
          let* _ := guard (0 <=? price) in
          Some (mkOs price dev slot None)
      | OdPool sqrt inv a b =>
          let* p := clmm_price sqrt inv a b in
          let* q := quote_state i a b in
          let* price := chk_fx (fmul p (os_price q)) in
          Some (mkOs price (os_dev q) (os_slot q) None)
      end
  | _ => None
  end.

(** bank.rs:1190-1220 [Bank::oracle_price] *)
Definition bank_price (b : bkinfo) (i : oinfos) (now : option (Z * Z)) : option fx :=
  let* _ := guard (bk_oracle b =? a_key (oi_oracle i)) in
  let* s := oracle_state i (bk_decimals b) false in
  let* ok := check_state s (bk_cfg b) now in
  if ok then Some (os_price s)
  else
    let* f := oi_fallback i in
    let* _ := guard (bk_fallback b =? a_key f) in
    let* s := oracle_state i (bk_decimals b) true in
    let* ok := check_state s (bk_cfg b) now in
    let* _ := guard ok in
    Some (os_price s).
(** perp_market.rs:277-296 *)
Definition perp_price (m : pminfo) (i : oinfos) (now : option (Z * Z)) : option fx :=
  let* _ := guard (pm_oracle m =? a_key (oi_oracle i)) in
  let* s := oracle_state i (pm_decimals m) false in
  let* ok := check_state s (pm_cfg m) now in
  let* _ := guard ok in
  Some (os_price s).

(** ** retrievers *)
Definition is_bank (a : ainfo) : bool := match a_data a with CBank _ => true | _ => false end.
Definition is_perp (a : ainfo) : bool := match a_data a with CPerp _ => true | _ => false end.
Definition is_oo (a : ainfo) : bool := match a_data a with COpenOrders => true | _ => false end.
Definition find_key (ais : list ainfo) (k : Z) : option ainfo := find (fun a => a_key a =? k) ais.

(** account_retriever.rs:58-150 *)
Record fixed := mkFixed { fr_ais : list ainfo; fr_banks : nat; fr_perps : nat; fr_oos : nat; fr_now : option (Z * Z) }.
Definition fixed_inner (ais : list ainfo) (n_banks n_perps n_oos : nat) (now : Z * Z) : option fixed :=
  let* _ := guard (Nat.leb (n_banks * 2 + n_perps * 2 + n_oos) (length ais)) in
  Some (mkFixed ais n_banks n_perps n_oos (Some now)).
(** the account has [n_tokens] active token positions, [n_perps] perp positions and
    [n_oos] open orders accounts *)
Definition fixed_new (ais : list ainfo) (n_tokens n_perps n_oos : nat) (now : Z * Z) : option fixed :=
  let* _ := guard (Nat.leb n_tokens (length ais)) in
  let* _ := guard (forallb is_bank (firstn n_tokens ais)) in
  fixed_inner ais n_tokens n_perps n_oos now.
Fixpoint count_while (f : ainfo -> bool) (l : list ainfo) : nat :=
  match l with [] => O | a :: r => if f a then S (count_while f r) else O end.
Definition fixed_new_optional (ais : list ainfo) (n_tokens n_perps n_oos : nat) (now : Z * Z) : option fixed :=
  let n := count_while is_bank ais in
  let* _ := guard (Nat.leb n n_tokens) in
  fixed_inner ais n n_perps n_oos now.

(** account_retriever.rs:153-176: from index [n - 1] down to 0 *)
Fixpoint bank_below (ais : list ainfo) (token : Z) (n : nat) : option (nat * bkinfo) :=
  match n with
  | O => None
  | S i =>
      match nth_error ais i with
      | Some (mkAi _ (CBank b)) => if bk_token b =? token then Some (i, b) else bank_below ais token i
      | _ => None
      end
  end.
Definition fixed_bank (r : fixed) (group : Z) (pos : nat) (token : Z) : option (nat * bkinfo) :=
  let* (i, b) := bank_below (fr_ais r) token (Nat.min (S pos) (fr_banks r)) in
  let* _ := guard (bk_group b =? group) in
  Some (i, b).
(** :196-213 *)
Definition fixed_infos (r : fixed) (oracle : nat) (fallback : Z) : option oinfos :=
  let* o := nth_error (fr_ais r) oracle in
  Some (mkOi o (find_key (skipn (fr_banks r * 2 + fr_perps r * 2 + fr_oos r) (fr_ais r)) fallback)
          (find_key (fr_ais r) USDC_FEED) (find_key (fr_ais r) SOL_FEED)).
(** :226-248 *)
Definition fixed_bank_and_oracle (r : fixed) (group : Z) (pos : nat) (token : Z) : option (bkinfo * fx) :=
  let* (i, b) := fixed_bank r group pos token in
  let* inf := fixed_infos r (fr_banks r + i) (bk_fallback b) in
  let* p := bank_price b inf (fr_now r) in
  Some (b, p).
(** :178-194, :250-278 *)
Definition fixed_perp_and_oracle (r : fixed) (group : Z) (pos : nat) (index : Z) : option (pminfo * fx) :=
  let j := (fr_banks r * 2 + pos)%nat in
  let* a := nth_error (fr_ais r) j in
  match a_data a with
  | CPerp m =>
      let* _ := guard ((pm_group m =? group) && (pm_index m =? index)) in
      let* o := nth_error (fr_ais r) (j + fr_perps r) in
      let* p := perp_price m (from_reader o) (fr_now r) in
      Some (m, p)
  | _ => None
  end.
(** :280-294 *)
Definition fixed_oo (r : fixed) (pos : nat) (key : Z) : option ainfo :=
  let* a := nth_error (fr_ais r) (fr_banks r * 2 + fr_perps r * 2 + pos) in
  let* _ := guard (a_key a =? key) in
  let* _ := guard (is_oo a) in
  Some a.

(** account_retriever.rs:431-527 [ScanningAccountRetriever::new_with_staleness] *)
Record scanning := mkScan { sr_ais : list ainfo; sr_banks : nat; sr_perps : nat; sr_oos : nat; sr_now : option (Z * Z) }.
Definition bank_of (a : ainfo) : option bkinfo := match a_data a with CBank b => Some b | _ => None end.
Definition perp_of (a : ainfo) : option pminfo := match a_data a with CPerp m => Some m | _ => None end.
(** all of the group, no index twice *)
Fixpoint scan_banks (l : list ainfo) (group : Z) (seen : list Z) : bool :=
  match l with
  | [] => true
  | a :: r =>
      match a_data a with
      | CBank b => (bk_group b =? group) && negb (existsb (Z.eqb (bk_token b)) seen) && scan_banks r group (bk_token b :: seen)
      | _ => true
      end
  end.
Fixpoint scan_perps (l : list ainfo) (group : Z) (seen : list Z) : bool :=
  match l with
  | [] => true
  | a :: r =>
      match a_data a with
      | CPerp m => (pm_group m =? group) && negb (existsb (Z.eqb (pm_index m)) seen) && scan_perps r group (pm_index m :: seen)
      | _ => true
      end
  end.
Definition scanning_new (ais : list ainfo) (group : Z) (now : option (Z * Z)) : option scanning :=
  let* _ := guard (scan_banks ais group []) in
  let n := count_while is_bank ais in
  let* _ := guard (Nat.leb (2 * n) (length ais)) in
  let rest := skipn (2 * n) ais in
  let* _ := guard (scan_perps rest group []) in
  let m := count_while is_perp rest in
  let* _ := guard (Nat.leb (2 * n + 2 * m) (length ais)) in
  Some (mkScan ais n m (count_while is_oo (skipn (2 * n + 2 * m) ais)) now).
(** index of the first account with this token / market index: the maps of the code *)
Fixpoint index_of (f : ainfo -> bool) (l : list ainfo) (n : nat) : option nat :=
  match n, l with
  | S n', a :: r => if f a then Some O else option_map S (index_of f r n')
  | _, _ => None
  end.
Definition has_token (t : Z) (a : ainfo) : bool := match a_data a with CBank b => bk_token b =? t | _ => false end.
Definition has_market (t : Z) (a : ainfo) : bool := match a_data a with CPerp m => pm_index m =? t | _ => false end.
(** :378-400 *)
Definition scan_infos (r : scanning) (oracle : nat) (fallback : Z) : option oinfos :=
  let* o := nth_error (sr_ais r) oracle in
  let tail := skipn (2 * sr_banks r + 2 * sr_perps r + sr_oos r) (sr_ais r) in
  Some (mkOi o (if fallback =? NO_KEY then None else find_key tail fallback) (find_key tail USDC_FEED) (find_key tail SOL_FEED)).
(** :313-319, :367-376 *)
Definition scan_at (r : scanning) (i : nat) : option (bkinfo * fx) :=
  let* a := nth_error (sr_ais r) i in
  let* b := bank_of a in
  let* inf := scan_infos r (sr_banks r + i) (bk_fallback b) in
  let* p := bank_price b inf (sr_now r) in
  Some (b, p).
Definition scanned_bank_and_oracle (r : scanning) (token : Z) : option (bkinfo * fx) :=
  let* i := index_of (has_token token) (sr_ais r) (sr_banks r) in scan_at r i.
(** :321-365: two banks at once, taken from the list in index order *)
Definition scanned_two (r : scanning) (t1 t2 : Z) : option (bkinfo * fx * option (bkinfo * fx)) :=
  if t1 =? t2 then
    let* i := index_of (has_token t1) (sr_ais r) (sr_banks r) in
    let* (b, p) := scan_at r i in Some (b, p, None)
  else
    let* i1 := index_of (has_token t1) (sr_ais r) (sr_banks r) in
    let* i2 := index_of (has_token t2) (sr_ais r) (sr_banks r) in
    let '(first, second, swap) := if Nat.ltb i1 i2 then (i1, i2, false) else (i2, i1, true) in
    let* (b1, p1) := scan_at r first in
    let* (b2, p2) := scan_at r second in
    if swap then Some (b2, p2, Some (b1, p1)) else Some (b1, p1, Some (b2, p2)).
(** :551-564 *)
Definition scanned_perp_and_oracle (r : scanning) (index : Z) : option (pminfo * fx) :=
  let rest := skipn (2 * sr_banks r) (sr_ais r) in
  let* i := index_of (has_market index) rest (sr_perps r) in
  let* a := nth_error rest i in
  let* m := perp_of a in
  let* o := nth_error rest (sr_perps r + i) in
  let* p := perp_price m (from_reader o) (sr_now r) in
  Some (m, p).
(** :566-573 *)
Definition scanned_oo (r : scanning) (key : Z) : option ainfo :=
  find_key (firstn (sr_oos r) (skipn (2 * sr_banks r + 2 * sr_perps r) (sr_ais r))) key.
