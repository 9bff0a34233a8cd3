# A Rocq (Coq 8.16.1) model of mango-v4

Source: `/repo/programs/mango-v4/src` (abbreviated `src/` below), read as text. Nothing of it is
built or run.

## 1. How the model is built

* Everything lives in `rocq/theories/`, logical name `Verif`. Only the Coq standard
  library is used (`List`, `ZArith`, `Lia`, `Bool`, `Permutation`, `Sorted`, ...).
* Per area there are four kinds of file:
  * `X.v`: the model. Every definition cites the Rust lines it transcribes, and says what it
    simplifies.
  * `XSpec.v`: the small vocabulary in which the properties are stated. It does not use the
    model's helpers (only its data types), so that a statement can be read without the proofs.
  * `XFacts.v`, `XInv.v`, ...: lemmas.
  * `PropX.v`: the property theorems `Cnn_...`, one `Print Assumptions` per theorem, and beside each
    theorem an `Example` showing a concrete, non-trivial case that meets its hypotheses.
* Rust integers are `Z` with explicit range checks where the range matters; `I80F48`
  is the integer `bits : Z` (value = bits / 2^48), with the rounding of the
  `fixed` crate: `*` floors, `/` truncates towards zero, `div_30_fraction_bits` as in `i80f48.rs`,
  conversions from integers are exact, `to_num::<i64>` floors.
  Overflow is a panic: operations return `option`/`res` (None = the transaction aborts, so that no
  state change is kept) where the property depends on it; where a theorem is stated on unbounded `Z`
  it covers every run of the code that does not abort on overflow (mango builds with
  `overflow-checks = true`, Cargo.toml profile.release), because on those runs bounded and
  unbounded arithmetic agree.
* `&mut self` functions return the new value. `Result` and panic are data (`option`, or an error
  type where the error matters). A Solana transaction is atomic: an error or a panic discards all
  changes, so the history theorems are over the operations that succeeded.
* `f64` computations are modelled bit-precisely in the stable price and the scaled weights (doubles that are
  not negative, no infinity); elsewhere a float that feeds a modelled value is an arbitrary (universally
  quantified) argument, and what is needed of it is a stated hypothesis.
* A claim the code does not keep is not dropped: the true part is proved, and the claim as a user
  would expect it is refuted by a theorem `..._refuted` that exhibits a concrete run (section 5).

## 2. Trusted base

* Coq's kernel (including the `vm_compute` conversion, used in examples and refutations).
* `Print Assumptions` says "Closed under the global context" for every property theorem: no axioms,
  not even of the standard library. (`vcheck` lists seven `ssrunder`/ssreflect axioms from the
  library files that get loaded by `Lia`/`Psatz`-style requires; no theorem depends on them.)
* The reading of the Rust text into Gallina. It is by hand, except the tables `GateTable.v` and
  `AuthTable.v`, which `tools/gen_gates.py` and `tools/gen_auth.py` extract from the Rust text.
* The semantics assumed for what is outside the program: Solana's transaction atomicity and
  instruction sysvar, SPL token transfers moving exactly the amount given, Anchor's account
  constraints and discriminator checks, the `fixed` crate's rounding.

## 3. What is modelled, and what is not

Modelled, function by function (the files cite the lines):

| area | Rust | Rocq |
|------|------|------|
| order tree, node arena | `state/orderbook/{nodes,ordertree}.rs` | `KeyBits`, `OrderTree*`, `BookArena*` |
| order keys, price data | `state/orderbook/nodes.rs`, `bookside.rs` | `Keys` |
| book side, iteration, depth queries | `state/orderbook/{bookside,bookside_iterator}.rs` | `BookSide*`, `BookDepth` |
| matching, posting, cancelling | `state/orderbook/{book,order,order_type}.rs` | `Book*` |
| event queue | `state/orderbook/queue.rs` | `EventQueue` |
| account side of perp trading, consume events, cancels, deactivation | `state/mango_account.rs`, `mango_account_components.rs`, `instructions/perp_*` | `PerpTypes`, `PerpSystem`, `PerpSlots`, `PerpCancel`, `PerpLots`, `PerpFees` |
| funding, pnl and fee settlement, loss socialization, perp bankruptcy and base liquidation accounting, force close | `state/perp_market.rs`, `instructions/perp_{update_funding,settle_*,liq_*,force_close_position}.rs` | `PerpMoney`, `PerpClaims*`, `SettleLimit` |
| token banks | `state/bank.rs`, `instructions/token_*` | `Bank*` |
| interest | `state/bank.rs`, `instructions/token_update_index_and_rate.rs` | `Interest*` |
| account slots | `state/mango_account.rs` | `AccountSlots*` |
| account resizing, at byte level | `state/mango_account.rs` (`resize`, header) | `Resize*` |
| fee buyback | `instructions/account_buyback_fees_with_mngo.rs`, `mango_account.rs` | `Buyback*` (with `BuybackIx`, the whole instruction) |
| health computation, liquidation state, max amounts | `health/{cache,client,account_retriever}.rs`, `mango_account.rs` | `Health*`, `LiqState` |
| instruction gate | `state/group.rs`, `instructions/ix_gate_set.rs`, every accounts struct | `IxGate`, `GateTable` |
| flash loans, health regions, the instruction sysvar scan | `instructions/{flash_loan,health_region}.rs` | `TxRules`, `TxFacts`, `TxMoney`, `TxRegion` |
| token conditional swaps | `state/token_conditional_swap*`, `instructions/token_conditional_swap_*` | `Tcs*` |
| spot liquidation | `instructions/token_liq_with_token.rs`, `health/cache.rs` | `TokenLiq*` |
| token bankruptcy with insurance | `instructions/token_liq_bankruptcy.rs` | `TokenBankr*`, `BankSystem` |
| force-closing borrows | `instructions/token_force_close_borrows_with_token.rs` | `ForceClose*` |
| collateral fees | `instructions/token_charge_collateral_fees.rs`; `health/cache.rs` `assets_and_liabs` | `CollatFee*` |
| spot orders | `instructions/serum3_place_order.rs`, `serum3_settle_funds.rs`, `serum3_liq_force_cancel_orders.rs`, `serum3_close_open_orders.rs`; `health/cache.rs` `recompute_serum3_info`, `total_serum3_potential`; `state/bank.rs` `update_potential_serum_tokens` (the order book program's effects and f64 price conversions are inputs) | `Serum*` |
| perp base liquidation, whole instruction | `instructions/perp_liq_base_or_positive_pnl.rs` | `PerpLiqBase*` |
| liquidation of negative perp pnl and perp bankruptcy, whole instruction | `instructions/perp_liq_negative_pnl_or_bankruptcy.rs`; `health/cache.rs` `perp_max_settle`, `spot_amount_given_for_health_zero` | `PerpLiqNeg*` |
| weight scaling | `state/bank.rs` `scaled_init_*_weight`; `health/cache.rs` | `Scaling*` |
| withdraw and deposit, whole instructions | `instructions/token_withdraw.rs`, `token_deposit.rs` | `TokenMove*` |
| settling pnl, whole instruction | `instructions/perp_settle_pnl.rs` | `SettleIx*` |
| forced withdrawals, whole instruction | `instructions/token_force_withdraw.rs` | `ForceWithdraw` |
| health check | `instructions/health_check.rs`; `health/cache.rs` `health_ratio` | `HealthCheck` |
| settling perp fees, whole instruction | `instructions/perp_settle_fees.rs` | `SettleFeesIx` |
| paying out perp fees, history of a settle token with its markets | `instructions/admin_perp_withdraw_fees.rs`, `perp_settle_fees.rs` | `FeeSystem` |
| closing accounts, sequence numbers | `instructions/account_close.rs`, `sequence_check.rs` | `AccountLife` |
| tokens and markets of a group | `instructions/token_register.rs`, `token_register_trustless.rs`, `token_add_bank.rs`, `token_deregister.rs`, `serum3_register_market.rs`, `serum3_deregister_market.rs`, `perp_create_market.rs`, `perp_close_market.rs` (addresses and keys) | `Registry` |
| perp orders and force-cancelling, whole instructions | `instructions/perp_place_order.rs`, `perp_liq_force_cancel_orders.rs`; `health/cache.rs` `recompute_perp_info` | `PerpOrderIx` |
| edits by the admins, listing of tokens, `Bank::verify` | `instructions/token_edit.rs`, `perp_edit_market.rs`, `serum3_edit_market.rs`, `token_register.rs`, `token_register_trustless.rs`, `token_add_bank.rs`, `token_update_index_and_rate.rs` (settings); `state/bank.rs` | `Admin*` |
| stable price | `state/stable_price.rs` | `Stable*` |
| precise division | `i80f48.rs` | `Div30*` |
| oracle acceptance and fallback, account retrievers | `state/oracle.rs`, `health/account_retriever.rs` | `Oracle*` |
| who may act on an account | all accounts structs, `mango_account.rs`, `instructions/token_withdraw.rs`, `flash_loan.rs`, `account_edit.rs` | `Auth*`, `AuthTable` |

Not modelled, or taken as input:

* `f32`/`f64` arithmetic (interest rate configuration, oracle
  decimals, conditional swap price formulas, logging): inputs; the stable price and the scaling of
  init weights are modelled bit by bit.
* Decoding of oracle accounts (Pyth, Switchboard, Raydium/Orca bytes) to price, confidence, slot:
  inputs; what the program does with them is modelled.
* Serum/OpenBook v1 CPIs: only their effect on the account's slots, potential-deposit counters and
  the health contribution of open orders; OpenBook v2 instructions are empty stubs in the source.
* Anchor account loading, PDA derivation, rent, logging and events emitted with `emit_stack`.
* Client code outside the program (`lib/`, `bin/`, `ts/`).

## 4. Plan and method per property

| id | model | Prop file | proof |
|----|-------|-----------|-------|
| C01, C02 | `OrderTree`: node arena, roots, free list | `PropOrderTree` | representation predicate linking arena handles to an inductive critbit tree; refinement to a finite map by induction over the operation list |
| C03 | same | `PropOrderTree` | allocated slots and free list partition the arena, invariant over histories |
| C04, C05 | same, and `BookArena` for a side of two trees | `PropOrderTree`, `PropBookSide` | stated against the map of the tree; minimum/maximum by structural induction |
| C06 | `Keys` | `PropKeys` | bit arithmetic on `Z` |
| C07, C46 | `BookSide`, `BookDepth` | `PropBookSide` | induction on the merge of two sorted lists; depth queries against list functions |
| C08 | `EventQueue` | `PropEventQueue` | refinement of the ring buffer to a list |
| C09-C12, C47, C50, C65 | `Book` | `PropBook`, `PropBookLimit` | loop invariant of the matching loop |
| C17 | `Book` cancels | `PropBook` | case analysis and induction on the owner's slots |
| C13-C16, C18, C48, C49, C51 | `PerpSystem`: accounts x book x queue | `PropPerp` | invariant over every history of operations |
| C19, C22, C55, C56 | `PerpMoney`, `PerpClaims` | `PropMoney`, `PropPerpLiq` | exact fixed-point sums over accounts, invariant over histories |
| C20, C21 | `SettleLimit` | `PropSettle` | case analysis; potential argument over a window |
| C23-C28, C31, C52 | `Bank`, `BankSystem` | `PropBank`, `PropTransfer` | invariant over histories, floor/div lemmas |
| C53 | `BankSolvency` | `PropBank` | potential `vault + borrows - deposits - fees - dust`, invariant over histories |
| C54 | `BankShare` | `PropBank` | invariant; refutation for socialized losses |
| C29, C30 | `Interest` | `PropInterest` | inequalities on floor/div |
| C32, C64 | `AccountSlots` | `PropAccountSlots` | list invariants over histories |
| C33 | `Resize` | `PropResize` | memmove semantics on byte lists; refinement to slot lists |
| C34 | `Buyback` | `PropBuyback` | ledger invariant over histories |
| C35-C37, C42, C57-C63 | `Health*`, `LiqState` | `PropHealth`, `PropLiqState` | monotonicity of floor-mul, worst case over all executions, state machine histories |
| C38 | `IxGate`, `GateTable` | `PropIxGate` | bit lemmas, table lookup |
| C39, C40 | `TxRules`, `TxMoney`, `TxRegion` | `PropTx` | induction over the instruction list of a transaction |
| C41, C66, C67 | `Tcs*` | `PropTcs` | history invariant; fixed-point inequalities |
| C43 | `Div30` | `PropDiv30` | bit-length case analysis |
| C69, C70 | `TokenLiq` | `PropTokenLiq` | bank operation bounds (C26) and the shape of health as a function of one balance; linear arithmetic with explicit rounding terms in `TokenLiqSpec` |
| C71 | `TokenBankr` | `PropTokenBankr` | inversion of the whole instruction; bank operation bounds; loop over banks by induction |
| C72 | `ForceClose` | `PropForceClose` | inversion of the instruction; bank operation bounds; health as a sum of two changed contributions |
| C73 | `CollatFee` | `PropCollatFee` | inversion of the instruction; induction over calls (time stamp as potential); sums over tokens |
| C74 | `Serum`, `Bank` | `PropSerum` | inversion of the instructions, bank step lemmas |
| C75 | `Serum` (`spot_run`) | `PropSerum` | induction over histories: charged + (on record - in the account) <= traded away |
| C76 | `Serum` (`order_run`, `pot_run`) | `PropSerum` | invariants over histories with ghost order slots; refutation for two banks |
| C77 | `Serum`, `Health` | `PropSerum` | inversion; the incremental cache equals the rebuilt one |
| C78 | `Serum`, `LiqState` | `PropSerum` | inversion; refutation when a loan fee is charged |
| C79 | `PerpLiqBase`, `PerpMoney`, `LiqState`, `Bank` | `PropPerpLiqBase` | inversion of the instruction, invariant of the five steps |
| C80, C81 | `PerpLiqBase`, `Health` | `PropPerpLiqBase` | each step against the need it solves for, projected against actual balance; refutations at the boundary |
| C82, C83 | `PerpLiqNeg`, `PerpMoney`, `Health`, `Bank` | `PropPerpLiqNeg` | inversion of the instruction, LiquidationEnd and settle health as functions of the settle balance |
| C84 | `Scaling` | `PropScaling` | error bounds of the double operations, monotonicity of rounding |
| C85, C86 | `TokenMove`, `Scaling`, `Health`, `Bank` | `PropTokenMove` | inversion; incremental cache equals the rebuilt one; concavity of a token's contribution; refutations |
| C87 | `SettleIx`, `SettleLimit`, `Health`, `Bank` | `PropSettleIx` | inversion; the change of the health cache by the two balances; refutations |
| C88 | `PerpSystem`, `PerpOrderIx`, `Health` | `PropPerpOrder` | the pnl of a position after a fill, out or cancel bounds from below what health counted on; sum over tokens; refutation |
| C89 | `PerpOrderIx`, `Book`, `Health`, `LiqState` | `PropPerpOrder` | inversion, C49, the recomputed cache is the account's; concavity of a token's contribution for the skipped tokens |
| C90 | `PerpOrderIx`, `Book`, `Health`, `LiqState` | `PropPerpOrder` | inversion, C17, C88 |
| C91 | `AdminEdit`, `Health`, `Scaling` | `PropAdmin` | inversion of all arguments; monotony of health in asset weights |
| C92 | `AdminEdit`, `Health` | `PropAdmin` | inversion; monotony of health in hupnl; witnesses for what fails |
| C93 | `AdminEdit` | `PropAdmin` | invariant over histories: banks equal up to the fallback oracle, in ranges |
| C94 | `AdminEdit`, `Scaling`, `Health` | `PropAdmin` | invariant over listings and over histories without the admin |
| C95 | `StablePrice` | `PropStable` | rounding to 53 bits is monotone, exact on doubles, with a relative error; inversion |
| C96 | `StablePrice` | `PropStable` | induction over histories, Bernoulli's inequality; witness |
| C97 | `SettleFeesIx`, `SettleLimit`, `Health` | `PropSettleFees` | inversion, C20, the health change lemmas of C87 |
| C98 | `HealthCheck`, `Health`, `HealthSkip` | `PropHealthCheck` | the tokens of the full cache cover those of the reduced one; the split of each token is monotone; witnesses |
| C99 | `ForceWithdraw`, `Auth`, `TokenMove`, `Health` | `PropForceWithdraw` | inversion with C45, exact health change of one token position; witness |
| C100 | `FeeSystem`, `BankSystem`, `SettleFeesIx` | `PropFeeSystem` | invariant over histories, simulation by the histories of C53 |
| C101 | `AccountLife`, `AccountSlots`, `PerpSystem` | `PropAccountLife` | slot and market invariants of C64, C13, C48 at the closing step |
| C102 | `AccountLife`, `Auth` | `PropAccountLife` | induction over histories, counting modulo 256; witness for re-creation |
| C103 | `BuybackIx`, `Buyback` | `PropBuybackIx` | bank facts of both sides with dust; the amounts of C34 |
| C104 | `Registry` | `PropRegistry` | inductive invariant over histories; witness for testing groups |
| C44, C68 | `Oracle` | `PropOracle` | decision rules; both retrievers against one lookup relation |
| C45 | `Auth`, `AuthTable` | `PropAuth` | table of instructions, decision rules |

## 5. Findings

Claims a reader of the code or its comments would expect that the code does not keep. Those marked
with a theorem name are refuted by a concrete run of the model; the others were noticed on reading.

* `matched_quantity` does not cover the amount its comment promises (`C46_matched_quantity_covers_amount_refuted`).
* A quote-limited ask can rest crossing the best bid (`C47_posted_ask_not_crossing_refuted`).
* Deactivating a perp position, or shrinking `perp_open_orders`, can leave events that cannot be
  consumed (`C48_deactivation_blocks_events_refuted`, `C48_resizing_blocks_events_refuted`).
* Settlement can exceed the settle limit by less than one native unit each time
  (`C21_exact_sum_refuted`); `perp_settle_fees` does not roll the settle window.
* `perp_force_close_position` does not settle funding and destroys or creates quote
  (`C22_force_close_refuted`); `socialize_loss` with zero open interest drops the loss.
* A socialized loss above all deposits makes the deposit index negative (`C23_uncovered_loss_refuted`).
* The `break` in the socialization loop leaves later banks of the token with the old deposit index
  (`C54_after_socialized_loss_refuted`).
* Dust may shrink by a rounding error on deposits (`C26_dust_never_negative_refuted`).
* `util0 = 0` divides by zero at zero utilization (`C30_always_defined_refuted`);
  `Bank::verify` does not require ordered rates.
* "Lenders are never paid more than borrowers owe" fails by rounding only (`C29_exactly_not_overpaid_refuted`).
* Changing the buyback interval breaks the promised fee lifetime (`C34_interval_change_refuted`).
* Gates GroupCreate, Serum3EditMarket, OpenbookV2EditMarket, OpenbookV2CancelOrder are never checked
  (`C38_all_gates_checked_refuted`).
* Init <= LiquidationEnd <= Maint fails when spot markets with open orders share a token
  (`C36_shared_token_refuted`).
* Skipping banks can overstate health when orders are open (`C58_with_orders_refuted`).
* Token bankruptcy does not check health, and one native unit can be valuable (`C62_unhealthy_only_refuted`).
* `flash_loan_end` with a bank listed twice miscounts (`C39_listed_twice_refuted`).
* A conditional swap can never trigger while the sell bank is deposits-reduce-only: `-I80F48::MIN`
  panics (`C67_reduce_only_sell_refuted`).
* Spot liquidation can leave the liqee with a small borrow of the asset by rounding (`C69_overdraw_refuted`); with
  liquidation fees above the gap of the weights, which `Bank::verify` accepts, accounts cannot be liquidated at all
  (`C70_progress_refuted`); the liqor's new borrow is checked neither against net borrow limits nor reduce-only mode.
* Token bankruptcy rounds the insurance payment up to a whole token, which for a cheap liab token buys back far more than
  asked for and owed; the rest becomes a deposit of the liqee (`C71_overshoot_refuted`). A negative `max_liab_transfer` is
  stopped only by the conversion to `u64` (taken to panic here; read only: if the `fixed` crate wrapped instead, the whole
  fund would be paid).
* Force-closing borrows compares init weights only, so it can push a healthy account below zero maintenance health
  (`C72_maint_refuted`), and it counts a borrow outweighed by perp pnl as one (`C72_pnl_refuted`). It creates borrows of the
  asset without net-borrow or utilisation checks and without a loan fee.
* `assets_and_liabs` takes the settle token index of a perp market as a position in the account's token list: the 100$ threshold of
  collateral fees then uses the price of another token (`C73_threshold_refuted`), and charging fails for accounts with
  fewer tokens (`C73_never_charged`). A fee that makes the position dust fails the instruction (read only).
* The bank passed to spot order instructions may be any bank of the token, while the account keeps one record of potential tokens:
  placing with one bank and settling with another leaves the first bank's potential (which counts against its deposit limit) too
  high for ever (`C76_two_banks_refuted`).
* `serum3_liq_force_cancel_orders` charges loan fees after computing the health cache and never puts them in: the mark of being
  liquidated can be removed although the actual health is below the limit (`C78_fee_missing_refuted`).
* Perp base liquidation takes more lots than needed when a market's overall weight exceeds one less the pnl fee; neither is
  validated (`C80_weight_refuted`).
* With overall weight zero and a position whose health is negative by less than 2^-48 of what a lot gives, perp base liquidation
  moves nothing for any request (`C81_stuck`, `C81_progress_refuted`).
* `adjust_token_balance` scales the asset weight at the lower of oracle and stable price, `new_health_cache` at the higher one: when
  they differ and deposits are weight-scaled, a withdraw passes the health check although the account's actual init health turns
  negative (`C85_price_refuted`).  Every instruction that checks health after `adjust_token_balance` is affected.
* Leaving out a bank at `token_withdraw` can hide the effect of an open spot order, so that a withdraw passes that makes the actual
  health negative (`C85_orders_refuted`).
* "Depositing can only increase health" (token_deposit.rs) fails with two open spot orders that reserve a borrowed token whose asset
  weight is below half its liability weight: depositing makes the account liquidatable (`C86_orders_refuted`).
* `perp_settle_pnl` has no health check afterwards: the settler's fee can make the winning account liquidatable
  (`C87_fee_refuted`), and unprocessed fills let it lower the losing account's health (`C87_fills_refuted`).
* Open perp orders count in health at the oracle and stable price, not at their own: a bid above the oracle price that passes the
  health check can make its owner liquidatable the moment it is filled (`C88_healthy_refuted`). What bounds the damage is the price
  limit of the market (within the maintenance weights).
* The targets of a maintenance weight shift are not compared with the initial weights. A shift can end with weights out of order, and
  with a token that has liquidation disabled counting as collateral (`C93_ordered_refuted`); during such a shift the security admin's
  `maint_weight_shift_abort` fails, because `verify` then refuses the weights (`C91_abort_refuted`).
* `Bank::from_existing_bank` gives an added bank the main oracle as fallback oracle (`C93_fallback_refuted`).
* `Bank::verify` and the checks in `token_edit` compare floats with `require_gte!`, that is `<`: NaN passes for every fee, scaling start
  and curve setting (`C93_nan_refuted`).
* Reduce-only can be taken back while force-close stays on, for perp markets, spot markets (`C92_force_refuted`) and tokens.
* A zero initial overall weight, which the security admin may set "to reduce risk", can raise initial health of accounts with two spot
  orders that reserve a borrowed token (`C92_orders_refuted`).
* A closed and re-created account starts with sequence number 0 again, so old guarded transactions can be replayed
  (`C102_recreate_refuted`).
* In testing groups a token can be deregistered while a spot market trades it, and its index reused
  for another mint; the market's index then means a token its external market does not trade
  (`C104_testing_refuted`).
* `token_force_withdraw` does not look at health. The flag requires a zero asset weight, so it is harmless (`C99_harmless`), unless a
  losing perp position settles in the token: then anyone can make the account liquidatable (`C99_healthy_refuted`).
* A `health_check` for a ratio with a negative minimum can pass with a bank left out and fail with all banks (`C98_negative_refuted`);
  with reserved spot order funds this holds for every kind (`C98_orders_refuted`).
* `StablePriceModel::update` adds all the seconds since the last update to `delay_accumulator_time`, but the price only for 600 of
  them: with updates more than 10 minutes apart the average is too low and the delay price falls by its growth limit every
  interval at a constant oracle price (`C96_delay_refuted`); the stable price may then move at a fraction of its speed only.
* With a stable price and an oracle price of zero, `update` panics (`f64::clamp` with NaN bounds), and with it
  `token_update_index_and_rate` or `perp_update_funding` (`C95_zero_refuted`).
* A pool oracle accepts a quote feed too uncertain to be accepted itself (`C44_pool_confidence_refuted`).
* Frozen accounts can still cancel all perp orders, cancel by client id, and migrate size
  (`C45_frozen_as_documented_refuted`); the buyback instruction checks `account` twice and never
  `dao_account`.
* Read only, no theorem: `perp_order_mut_by_raw_index` is unchecked; perp and serum market creation accept index `MAX`;
  `remove_one_expired` uses `<` where
  `is_expired` uses `>=`; perp weights are not validated;
  the start-incentive
  volume check is applied to linear auctions but not to premium ones; a linear auction starting at
  timestamp 0 never triggers; PythV2 partial verification does not use the fallback oracle; a
  temporary delegate cannot be set alone; the "tiny amount" rule for delegate withdrawals in the
  comment is not enforced; `div_30_fraction_bits` panics on `i128::MIN`.

## 6. Testing the theorems

`tools/mutate.py` copies the compiled theories, edits one definition the way a realistic bug would,
rebuilds what depends on it and records which theorems fail (`seeded/LOG.jsonl`). The edits are in
`tools/mutations*.py`.
