(** Token conditional swaps (stop loss / take profit orders): creation, start,
    trigger, cancellation.
    Models src/state/token_conditional_swap.rs and the instructions
    token_conditional_swap_create.rs, _start.rs, _trigger.rs, _cancel.rs.
    Prices are f64 in the code; what the swap code reads of them enters as the
    record [quote], for every possible value.  One bank per token.
    [None]: the call fails or panics, so the transaction reverts. *)
From Coq Require Import List ZArith Lia Bool.
From Verif Require Import Health HealthSpec LiqState OrderTree Keys PerpTypes Interest Bank BankSystem Fixed.
Import ListNotations.
Open Scope Z_scope.

(** token_conditional_swap.rs:37-44 *)
Inductive tcs_type := FixedPremium | PremiumAuction | LinearAuction.
Definition type_eqb (x y : tcs_type) : bool :=
  match x, y with
  | FixedPremium, FixedPremium | PremiumAuction, PremiumAuction | LinearAuction, LinearAuction => true
  | _, _ => false
  end.
(** token_conditional_swap.rs:46-150 [TokenConditionalSwap]; price limits, premium
    rate and duration only enter through [quote]; [k_taker] is
    [I80F48::from_num(taker_fee_rate)] *)
Record tcs := mkTcs {
  k_on : bool; k_id : Z; k_max_buy : Z; k_max_sell : Z; k_bought : Z; k_sold : Z; k_expiry : Z;
  k_buy : Z; k_sell : Z; k_deps : bool; k_bors : bool; k_type : tcs_type; k_start : Z; k_taker : fx }.
(** token_conditional_swap.rs:159-186 *)
Definition tcs_default : tcs := mkTcs false 0 0 0 0 0 U64_MAX 65535 65535 false false FixedPremium 0 0.
Definition set_progress (c : tcs) (bought sold start : Z) : tcs :=
  mkTcs (k_on c) (k_id c) (k_max_buy c) (k_max_sell c) bought sold (k_expiry c)
    (k_buy c) (k_sell c) (k_deps c) (k_bors c) (k_type c) start (k_taker c).

(** token_conditional_swap.rs:205-240 *)
Definition is_expired (c : tcs) (now : Z) : bool := k_expiry c <=? now.
Definition passed_start (c : tcs) (now : Z) : bool := (0 <? k_start c) && (k_start c <=? now).
Definition chk_u64 (n : Z) : option Z := if (0 <=? n) && (n <=? U64_MAX) then Some n else None.
Definition remaining_buy (c : tcs) : option Z := chk_u64 (k_max_buy c - k_bought c).
Definition remaining_sell (c : tcs) : option Z := chk_u64 (k_max_sell c - k_sold c).

(** What the code computes in f64: the price including the premium and including
    the maker fee as I80F48 (:247-285, trigger.rs:228-233), whether the maker price
    exceeds 1.0 and, rounded down to u64, the maker price or its inverse
    (trigger.rs:447-459), whether the oracle price is in the swap's range (:299-301)
    and whether the taker price reaches the triggerer's minimum (trigger.rs:236-240). *)
Record quote := mkQuote {
  q_premium : fx; q_maker : fx; q_above_one : bool; q_unit : Z; q_in_range : bool; q_taker_ok : bool }.

(** i80f48.rs:19-27 [clamp_to_u64] *)
Definition clamp_u64 (x : fx) : Z :=
  if x <=? 0 then 0 else if of_int U64_MAX <=? x then U64_MAX else to_int x.
(** [I80F48::MIN], [I80F48::MAX]; negating the former overflows *)
Definition fx_min : fx := - 2 ^ 127.
Definition fneg (x : fx) : option fx := if x =? fx_min then None else Some (- x).

(** token_conditional_swap.rs:355-382 *)
Definition max_buy_for_position (c : tcs) (pos : fx) (buy_bank : bank) : option Z :=
  let* r := remaining_buy c in
  let* lim := (if k_deps c && negb (deposits_reduce_only buy_bank) then Some U64_MAX
               else let* n := fneg pos in Some (clamp_u64 (fceil n))) in
  Some (Z.min r lim).
Definition max_sell_for_position (c : tcs) (pos : fx) (sell_bank : bank) : option Z :=
  let* r := remaining_sell c in
  Some (Z.min r (if k_bors c && negb (borrows_reduce_only sell_bank) then U64_MAX else clamp_u64 (ffloor pos))).

(** trigger.rs:170-199 [trade_amount_inner]; [P] is sell_per_buy_price *)
Definition trade_amount_inner (max_buy max_sell : Z) (P : fx) : option (Z * Z) :=
  let* buy_for_sell :=
    (if fone <? P
     then let* q := cdiv (of_int max_sell + fone - 1) P in Some (to_int (ffloor q))
     else let* q := cdiv (Z.min (ffloor (fmul (of_int max_buy) P)) (of_int max_sell)) P in Some (to_int (fceil q))) in
  let* buy_for_sell := chk_u64 buy_for_sell in
  let buy := Z.min max_buy buy_for_sell in
  let* sell_for_buy := chk_u64 (to_int (ffloor (fmul (of_int buy) P))) in
  let sell := Z.min max_sell sell_for_buy in
  let* _ := guard (Bool.eqb (0 <? buy) (0 <? sell)) in
  Some (buy, sell).

(** trigger.rs:139-168 [trade_amount] *)
Definition trade_amount (c : tcs) (P : fx) (max_buy max_sell : Z) (liqee_buy liqee_sell liqor_buy liqor_sell : fx)
  (buy_bank sell_bank : bank) : option (Z * Z) :=
  let* mb := max_buy_for_position c liqee_buy buy_bank in
  let* ms := max_sell_for_position c liqee_sell sell_bank in
  let lb := if borrows_reduce_only buy_bank then clamp_u64 (ffloor liqor_buy) else U64_MAX in
  let* ls := (if deposits_reduce_only sell_bank then let* n := fneg liqor_sell in Some (clamp_u64 (fceil n))
              else Some U64_MAX) in
  trade_amount_inner (Z.min (Z.min max_buy mb) lb) (Z.min (Z.min max_sell ms) ls) P.

(** ** accounts *)
(** the token positions (token index, position), at most [s_cap] of them, the swap
    slots, the id of the next swap and the being-liquidated flag *)
Record sacct := mkSa { s_pos : list (Z * tpos); s_cap : nat; s_swaps : list tcs; s_next : Z; s_flag : bool }.
Definition set_pos (a : sacct) l := mkSa l (s_cap a) (s_swaps a) (s_next a) (s_flag a).
Definition set_swaps (a : sacct) l := mkSa (s_pos a) (s_cap a) l (s_next a) (s_flag a).
Definition set_flag (a : sacct) f := mkSa (s_pos a) (s_cap a) (s_swaps a) (s_next a) f.

(** mango_account.rs:1000-1026 [ensure_token_position], [token_position_mut] *)
Definition sensure (a : sacct) (t : Z) : option sacct :=
  match pos_get (s_pos a) t with
  | Some _ => Some a
  | None => if Nat.ltb (length (s_pos a)) (s_cap a) then Some (set_pos a (s_pos a ++ [(t, mkTpos 0 0)])) else None
  end.
(** mango_account.rs:1028-1049: panics when the position is in use *)
Definition sdeactivate (a : sacct) (t : Z) : option sacct :=
  let* p := pos_get (s_pos a) t in
  let* _ := guard (t_use p =? 0) in Some (set_pos a (pos_del (s_pos a) t)).
(** mango_account.rs:1055-1075 [token_decrement_dust_deactivate] *)
Definition srelease (a : sacct) (t : Z) (b : bank) (now : Z) : option (sacct * bank) :=
  match pos_get (s_pos a) t with
  | None => Some (a, b)
  | Some p =>
      let* (b', p', act) := dust_if_possible b (mkTpos (t_ix p) (Z.max 0 (t_use p - 1))) now in
      let a' := set_pos a (pos_set (s_pos a) t p') in
      let* a'' := (if act then Some a' else sdeactivate a' t) in
      Some (a'', b')
  end.
(** position -> increment_in_use, mango_account_components.rs:103-105: u16 addition *)
Definition suse (a : sacct) (t : Z) : option sacct :=
  let* a := sensure a t in
  let* p := pos_get (s_pos a) t in
  let* _ := guard (t_use p <? 65535) in
  Some (set_pos a (pos_set (s_pos a) t (mkTpos (t_ix p) (t_use p + 1)))).

(** ** the group: banks by token index, accounts by key *)
Record sworld := mkSw { sw_banks : Z -> option bank; sw_accts : Z -> option sacct }.
Definition sput {A} (f : Z -> option A) (k : Z) (v : A) : Z -> option A := fun x => if x =? k then Some v else f x.

(** what happened: a swap created (account, id, max_buy, max_sell), a trigger
    (account, id, bought, sold), a start (account, id, incentive booked as sold),
    a swap removed (account, id) *)
Inductive sevent :=
| ECreate (acct id max_buy max_sell : Z)
| ETrigger (acct id buy sell : Z)
| EStart (acct id incentive : Z)
| EClose (acct id : Z).

Fixpoint free_index (l : list tcs) : option nat :=
  match l with [] => None | c :: r => if k_on c then option_map S (free_index r) else Some O end.

(** lib.rs:1390-1587 and token_conditional_swap_create.rs: [nonneg] says that
    the f64 rates and limits are not negative *)
Record create_args := mkCa {
  ca_max_buy : Z; ca_max_sell : Z; ca_expiry : Z; ca_buy : Z; ca_sell : Z;
  ca_deps : bool; ca_bors : bool; ca_type : tcs_type; ca_start : Z; ca_taker : fx; ca_nonneg : bool }.
Definition swap_create (w : sworld) (k : Z) (ca : create_args) (now : Z) : option (sworld * list sevent) :=
  let* a := sw_accts w k in
  let* _ := guard ((0 <=? ca_max_buy ca) && (ca_max_buy ca <=? U64_MAX) && (0 <=? ca_max_sell ca) && (ca_max_sell ca <=? U64_MAX)
                   && (0 <=? ca_start ca) && (ca_start ca <=? U64_MAX)) in     (* u64 arguments *)
  if ca_expiry ca <=? now then Some (w, [])
  else
    let* _ := sw_banks w (ca_buy ca) in
    let* _ := sw_banks w (ca_sell ca) in
    let* a := suse a (ca_buy ca) in
    let* a := suse a (ca_sell ca) in
    let id := s_next a in
    let* i := free_index (s_swaps a) in
    let start := match ca_type ca with LinearAuction => ca_start ca | _ => 0 end in
    let c := mkTcs true id (ca_max_buy ca) (ca_max_sell ca) 0 0 (ca_expiry ca) (ca_buy ca) (ca_sell ca)
               (ca_deps ca) (ca_bors ca) (ca_type ca) start (ca_taker ca) in
    let* _ := guard (negb (ca_buy ca =? ca_sell ca) && ca_nonneg ca && (0 <=? ca_taker ca)) in
    let a := mkSa (s_pos a) (s_cap a) (upd (s_swaps a) i c) ((id + 1) mod 2 ^ 64) (s_flag a) in
    Some (mkSw (sw_banks w) (sput (sw_accts w) k a), [ECreate k id (ca_max_buy ca) (ca_max_sell ca)]).

(** mango_account.rs: the slot's two positions are released; trigger.rs:69-71,
    :476-480, cancel.rs:45-46 *)
Definition release_both (a : sacct) (bt st : Z) (bb sb : bank) (now : Z) : option (sacct * bank * bank) :=
  let* (a, bb) := srelease a bt bb now in
  let* (a, sb) := srelease a st sb now in
  Some (a, bb, sb).

(** cancel.rs *)
Definition swap_cancel (w : sworld) (k : Z) (i : nat) (id bt st : Z) (now : Z) : option (sworld * list sevent) :=
  let* a := sw_accts w k in
  let* c := nth_error (s_swaps a) i in
  let* bb := sw_banks w bt in
  let* sb := sw_banks w st in
  let* _ := guard ((k_buy c =? bt) && (k_sell c =? st)) in
  if negb (k_on c) then Some (w, [])
  else
    let* _ := guard (k_id c =? id) in
    let a := set_swaps a (upd (s_swaps a) i tcs_default) in
    let* (a, bb, sb) := release_both a bt st bb sb now in
    Some (mkSw (sput (sput (sw_banks w) bt bb) st sb) (sput (sw_accts w) k a), [EClose k id]).

(** healths of the liqee before and after, as computed from oracles and health
    accounts; init health of the liqor afterwards *)
Record hin := mkHin { hi_pre : fx; hi_pre_end : fx; hi_post : fx; hi_liqor : fx }.

(** token_conditional_swap.rs:303-346 *)
Definition check_startable (c : tcs) (q : quote) (now : Z) : bool :=
  negb (is_expired c now) && (k_start c =? 0) && type_eqb (k_type c) PremiumAuction && q_in_range q.
Definition check_triggerable (c : tcs) (q : quote) (now : Z) : bool :=
  negb (is_expired c now) && match k_type c with FixedPremium => q_in_range q | _ => passed_start c now end.

Definition TCS_START_INCENTIVE : Z := 1000.
(** start.rs; [price] is the sell token's oracle price *)
Definition swap_start (w : sworld) (lk rk : Z) (i : nat) (id : Z) (price : fx) (q : quote) (h : hin) (now : Z)
  : option (sworld * list sevent) :=
  let* _ := guard (negb (lk =? rk)) in
  let* liqee := sw_accts w lk in
  let* liqor := sw_accts w rk in
  let* _ := guard (negb (s_flag liqee)) in
  let* c := nth_error (s_swaps liqee) i in
  let* _ := guard (k_on c && (k_id c =? id)) in
  let* _ := guard (type_eqb (k_type c) PremiumAuction) in
  let* f := pre_check (s_flag liqee) (hi_pre h) (hi_pre_end h) in
  let* b := sw_banks w (k_sell c) in
  let* _ := guard (check_startable c q now) in
  let* inc := cdiv (of_int TCS_START_INCENTIVE) price in
  let* rem := remaining_sell c in
  let incentive := Z.max (Z.min (Z.min inc (of_int rem)) (remaining_deposits_until_limit b)) 0 in
  let incentive_native := clamp_u64 incentive in
  let* p := pos_get (s_pos liqee) (k_sell c) in
  let* liqor := sensure liqor (k_sell c) in
  let* r := pos_get (s_pos liqor) (k_sell c) in
  let* (b, p, r, _, _) := checked_transfer b p incentive r incentive now price in
  let* _ := guard (negb (native b p <? 0) || k_bors c) in
  let* _ := guard (0 <? now) in
  let* sold := chk_u64 (k_sold c + incentive_native) in
  let* _ := guard (sold <=? k_max_sell c) in
  let* _ := guard (post_check (hi_pre h) (hi_post h)) in
  let c := set_progress c (k_bought c) sold now in
  let liqee := set_flag (set_swaps (set_pos liqee (pos_set (s_pos liqee) (k_sell c) p)) (upd (s_swaps liqee) i c)) f in
  let liqor := set_pos liqor (pos_set (s_pos liqor) (k_sell c) r) in
  Some (mkSw (sput (sw_banks w) (k_sell c) b) (sput (sput (sw_accts w) lk liqee) rk liqor), [EStart lk id incentive_native]).

(** token_conditional_swap.rs:293-297 *)
Definition taker_fee (c : tcs) (amount : fx) : Z := to_int (ffloor (fmul amount (k_taker c))).

(** trigger.rs:422-472: whether the swap is done at this price *)
Definition TCS_TRIGGER_INIT_HEALTH_THRESHOLD : Z := 1000000.
Definition swap_done (c : tcs) (q : quote) (liqee_buy liqee_sell : fx) (buy_bank sell_bank : bank) (pre post : fx)
  : option bool :=
  let* (future_buy, future_sell) :=
    trade_amount c (q_maker q) U64_MAX U64_MAX liqee_buy liqee_sell fx_max fx_min buy_bank sell_bank in
  let* unit2 := chk_u64 (2 * q_unit q) in
  let max_trade_reached := if q_above_one q then future_sell <? unit2 else future_buy <? unit2 in
  let low := (post <? pre) && (post <? of_int TCS_TRIGGER_INIT_HEALTH_THRESHOLD) in
  Some ((future_buy =? 0) || (future_sell =? 0) || low || max_trade_reached).

(** trigger.rs:242-345: the amounts and the two transfers.  The liqee receives
    [x_buy] buy tokens and pays [x_paid] sell tokens; the liqor receives [x_got] of
    them, the bank's fees the rest. *)
Record trade := mkTrade {
  x_buy : Z; x_paid : Z; x_got : Z; x_bb : bank; x_sb : bank;
  x_ebp : tpos; x_esp : tpos; x_rbp : tpos; x_rsp : tpos; x_rb_act : bool; x_rs_act : bool }.
Definition swap_trade (c : tcs) (q : quote) (max_buy max_sell : Z) (bb sb : bank) (ebp esp rbp rsp : tpos)
  (bprice sprice : fx) (now : Z) : option trade :=
  let* (buy, sell_maker) :=
    trade_amount c (q_maker q) max_buy max_sell (native bb ebp) (native sb esp) (native bb rbp) (native sb rsp) bb sb in
  let sell_fx := ffloor (fmul (of_int buy) (q_premium q)) in
  let* sell := chk_u64 (to_int sell_fx) in
  let* maker_fee := chk_u64 (sell_maker - sell) in
  let* taker := chk_u64 (taker_fee c sell_fx) in
  let* to_liqor := chk_u64 (sell - taker) in
  let* (bb, rbp, ebp, br, _) := checked_transfer bb rbp (of_int buy) ebp (of_int buy) now bprice in
  let* (sb, esp, rsp, _, rs_act) := checked_transfer sb esp (of_int sell_maker) rsp (of_int to_liqor) now sprice in
  let sb := set_totals sb (b_dep sb) (b_bor sb) (b_dust sb) (b_fees sb + of_int (maker_fee + taker)) in
  Some (mkTrade buy sell_maker to_liqor bb sb ebp esp rbp rsp (w_active br) rs_act).

Definition drop_if_inactive (a : sacct) (t : Z) (act : bool) : option sacct := if act then Some a else sdeactivate a t.

(** trigger.rs:21-131 and [action], :201-510.  [max_buy], [max_sell] are the
    triggerer's limits, [min_buy] its minimum; [bprice], [sprice] the oracle prices *)
Definition swap_trigger (w : sworld) (lk rk : Z) (i : nat) (id : Z) (max_buy max_sell min_buy : Z)
  (bprice sprice : fx) (q : quote) (h : hin) (now : Z) : option (sworld * list sevent) :=
  let* _ := guard ((0 <=? max_buy) && (max_buy <=? U64_MAX) && (0 <=? max_sell) && (max_sell <=? U64_MAX) && (0 <=? min_buy)) in
  let* _ := guard (negb (lk =? rk)) in
  let* liqor := sw_accts w rk in
  let* _ := guard (negb (s_flag liqor)) in
  let* liqee := sw_accts w lk in
  let* c := nth_error (s_swaps liqee) i in
  let* _ := guard (k_on c && (k_id c =? id)) in
  let bt := k_buy c in
  let st := k_sell c in
  let* bb := sw_banks w bt in
  let* sb := sw_banks w st in
  let* _ := guard (negb (bt =? st)) in        (* the retriever hands out two different banks *)
  if is_expired c now then
    let* _ := guard (min_buy =? 0) in
    let liqee := set_swaps liqee (upd (s_swaps liqee) i tcs_default) in
    let* (liqee, bb, sb) := release_both liqee bt st bb sb now in
    Some (mkSw (sput (sput (sw_banks w) bt bb) st sb) (sput (sw_accts w) lk liqee), [EClose lk id])
  else
    let* liqee := sensure liqee bt in
    let* liqee := sensure liqee st in
    let* f := pre_check (s_flag liqee) (hi_pre h) (hi_pre_end h) in
    let* _ := guard (check_triggerable c q now) in
    let* _ := guard (q_taker_ok q) in
    let* ebp := pos_get (s_pos liqee) bt in
    let* esp := pos_get (s_pos liqee) st in
    let* liqor := sensure liqor bt in
    let* liqor := sensure liqor st in
    let* rbp := pos_get (s_pos liqor) bt in
    let* rsp := pos_get (s_pos liqor) st in
    let* x := swap_trade c q max_buy max_sell bb sb ebp esp rbp rsp bprice sprice now in
    let liqee := set_pos liqee (pos_set (pos_set (s_pos liqee) bt (x_ebp x)) st (x_esp x)) in
    let liqor := set_pos liqor (pos_set (pos_set (s_pos liqor) bt (x_rbp x)) st (x_rsp x)) in
    let* liqor := drop_if_inactive liqor bt (x_rb_act x) in
    let* liqor := drop_if_inactive liqor st (x_rs_act x) in
    let* _ := guard (post_check (hi_pre h) (hi_post h)) in
    let* bought := chk_u64 (k_bought c + x_buy x) in
    let* sold := chk_u64 (k_sold c + x_paid x) in
    let* _ := guard ((bought <=? k_max_buy c) && (sold <=? k_max_sell c)) in
    let c := set_progress c bought sold (if passed_start c now then k_start c else now) in
    let* done := swap_done c q (native (x_bb x) (x_ebp x)) (native (x_sb x) (x_esp x)) (x_bb x) (x_sb x) (hi_pre h) (hi_post h) in
    let liqee := set_flag liqee f in
    let* (liqee, bb, sb) :=
      (if done then release_both (set_swaps liqee (upd (s_swaps liqee) i tcs_default)) bt st (x_bb x) (x_sb x) now
       else Some (set_swaps liqee (upd (s_swaps liqee) i c), x_bb x, x_sb x)) in
    let* _ := guard (min_buy <=? x_buy x) in
    let* _ := guard (0 <=? hi_liqor h) in
    Some (mkSw (sput (sput (sw_banks w) bt bb) st sb) (sput (sput (sw_accts w) lk liqee) rk liqor),
          ETrigger lk id (x_buy x) (x_paid x) :: (if done then [EClose lk id] else [])).

(** ** histories *)
Inductive sop :=
| SCreate (k : Z) (ca : create_args) (now : Z)
| SCancel (k : Z) (i : nat) (id bt st now : Z)
| SStart (lk rk : Z) (i : nat) (id : Z) (price : fx) (q : quote) (h : hin) (now : Z)
| STrigger (lk rk : Z) (i : nat) (id max_buy max_sell min_buy : Z) (bprice sprice : fx) (q : quote) (h : hin) (now : Z)
| SAccountNew (k : Z) (tokens swaps : nat)     (* account_create.rs: a new account *)
| SOther (banks : Z -> option bank) (pos : Z -> list (Z * tpos)) (flags : Z -> bool).
    (* any other instruction: banks, positions and flags of all accounts may change
       in any way, swaps do not *)
Definition sstep (w : sworld) (o : sop) : option (sworld * list sevent) :=
  match o with
  | SCreate k ca now => swap_create w k ca now
  | SCancel k i id bt st now => swap_cancel w k i id bt st now
  | SStart lk rk i id price q h now => swap_start w lk rk i id price q h now
  | STrigger lk rk i id mb ms mn bp sp q h now => swap_trigger w lk rk i id mb ms mn bp sp q h now
  | SAccountNew k nt ns =>
      match sw_accts w k with
      | Some _ => None
      | None => Some (mkSw (sw_banks w) (sput (sw_accts w) k (mkSa [] nt (repeat tcs_default ns) 0 false)), [])
      end
  | SOther banks pos flags =>
      Some (mkSw banks (fun k => match sw_accts w k with
                                 | Some a => Some (set_flag (set_pos a (pos k)) (flags k))
                                 | None => None
                                 end), [])
  end.
(** failed calls leave everything unchanged; the events of the whole history *)
Fixpoint srun (w : sworld) (ops : list sop) : sworld * list sevent :=
  match ops with
  | [] => (w, [])
  | o :: r =>
      match sstep w o with
      | Some (w', ev) => let (w'', ev') := srun w' r in (w'', ev ++ ev')
      | None => srun w r
      end
  end.
