#!/usr/bin/env python3
"""Writes /verif/properties.jsonl (kept as source so that properties are easy to edit)."""
import json
S="programs/mango-v4/src/"
P=[]
def p(id,title,statement,quantifier,why,anchors):
    P.append(dict(id=id,title=title,statement=statement,quantifier=quantifier,why_tests_cant=why,anchors=anchors))

p("C01","Order tree behaves as an ordered map",
 "After any sequence of order insertions and removals on one side of a perp book (fixed-price and oracle-pegged orders share one node arena), the set of resting orders of each component is exactly the set obtained by applying the same sequence to a finite map from order key to order: inserting a key adds it (or replaces the order with that key and reports it), removing a key removes exactly that order and returns it, removing an absent key changes nothing, and the other component is never affected. No operation panics.",
 "every finite history of insert/remove operations on either component, every key, every arena capacity up to the u32 handle space, starting from a zeroed account",
 "The critbit tree is rebalanced in place in a shared arena with a free list; a handle mix-up only shows for particular key bit patterns and histories, of which there are infinitely many.",
 [S+"state/orderbook/ordertree.rs: OrderTreeNodes::insert_leaf, remove_by_key, insert, remove", S+"state/orderbook/bookside.rs: BookSide::insert_leaf, remove_by_key"])
p("C02","Book iteration is complete and sorted",
 "Iterating one component of a book side returns every resting order exactly once, in ascending key order for asks and descending key order for bids; the first/last element agree with the min/max leaf queries.",
 "every reachable tree, both sides",
 "Sampling trees can never establish order for all critbit shapes and all key sets.",
 [S+"state/orderbook/ordertree_iterator.rs: OrderTreeIter", S+"state/orderbook/ordertree.rs: leaf_min_max, min_leaf, max_leaf"])
p("C03","No arena slot leaks, capacity is honest",
 "In every reachable book side the used and freed arena slots partition the allocated slots; each component with n>0 orders uses exactly 2n-1 slots and its leaf count is n; and if the side does not report itself full, inserting one more order succeeds. A failed insertion leaves the tree as it was.",
 "every reachable arena state, every order",
 "A leak of one slot per rare history slowly bricks a market; it is visible only over unbounded histories.",
 [S+"state/orderbook/ordertree.rs: is_full, insert, remove, insert_leaf"])
p("C04","Expired-order eviction is exact",
 "The cached per-subtree expiry always equals the real minimum expiry of the orders below it, so remove_one_expired finds an order if and only if some order's expiry timestamp lies strictly before the given time, the order it returns is one with the smallest expiry, and only that order is removed.",
 "every reachable tree, every now_ts",
 "The cached minimum is maintained incrementally with an early-exit propagation rule; errors need specific insertion/removal/expiry interleavings.",
 [S+"state/orderbook/ordertree.rs: remove_one_expired, find_earliest_expiry, update_parent_earliest_expiry"])
p("C05","Worst-order eviction evicts the lowest priority order",
 "remove_worst on one component removes and returns the order of lowest priority (lowest key for bids, highest key for asks); on a book side it removes the order that the combined fixed/pegged iteration ranks last.",
 "every reachable book side and oracle price",
 "Depends on all key sets in both trees.",
 [S+"state/orderbook/ordertree.rs: remove_worst, find_worst", S+"state/orderbook/bookside.rs: remove_worst"])
p("C06","Order keys encode price-time priority",
 "The 128-bit order key determines its price data (round trip for fixed and pegged prices), keys of different sequence numbers differ, and key order is price-time priority: for asks a lower price is strictly better, for bids a higher price is strictly better, and at equal price the lower sequence number is better. The signed peg offset is encoded order-preservingly over the whole i64 range.",
 "every side, every price/offset in range and every u64 sequence number",
 "2^128 key pairs.",
 [S+"state/orderbook/nodes.rs: new_node_key, oracle_pegged_price_data, oracle_pegged_price_offset, fixed_price_data, fixed_price_lots"])
p("C07","Combined book iteration",
 "The combined iterator over fixed and pegged orders yields orders best-price-first with time priority, never drops a fixed order and only skips pegged orders whose effective price is not representable as a price in [1, i64::MAX]; an order is reported valid exactly if it is not expired and its pegged price is not beyond its peg limit.",
 "every book side, oracle price lots and time",
 "Two sorted streams with price shifts by arbitrary oracle values, saturating arithmetic at i64 edges.",
 [S+"state/orderbook/bookside_iterator.rs: BookSideIter, rank_orders, oracle_pegged_price"])
p("C08","Event queue is a bounded FIFO",
 "The event queue behaves as a FIFO of bounded capacity: pushes append or are rejected when full, pops return events in push order exactly once, iteration lists pending events oldest first without modifying them, and sequence numbers count pushes.",
 "every history of push/pop and every capacity",
 "Ring buffer wrap-around combined with arbitrary histories.",
 [S+"state/orderbook/queue.rs: Queue, EventQueueHeader"])
p("C09","Fills respect the taker's limits",
 "Placing a perp order never fills more base lots than max_base_lots nor more quote lots than max_quote_lots, never fills at a price worse than the order's limit price, each fill happens at the resting order's price, and resting orders are matched in book priority order; base filled plus base posted never exceeds max_base_lots and quote filled plus quote posted never exceeds max_quote_lots.",
 "every book, every order, every oracle price",
 "Depends on every combination of book content, order type and limits.",
 [S+"state/orderbook/book.rs: Orderbook::new_order", S+"state/orderbook/order.rs: Order"])
p("C10","Post-only orders never take",
 "A PostOnly or PostOnlySlide order never produces a fill; a PostOnlySlide order that is posted never crosses the best valid opposing order; a PostOnly order that would cross is not posted.",
 "every book and order",
 "All book states and prices, including pegged orders and i64 edge prices.",
 [S+"state/orderbook/book.rs: new_order", S+"state/orderbook/order.rs: price, post_only_slide_limit"])
p("C11","Immediate orders never rest",
 "ImmediateOrCancel and Market orders never add a resting order to the book; when an order is posted its quantity is positive and it is added to exactly the account slot and side recorded in the node.",
 "every book and order",
 "All order types and books.",
 [S+"state/orderbook/book.rs: new_order", S+"state/orderbook/order.rs: post_target"])
p("C12","Self-trade behaviours",
 "With AbortTransaction an order that would match one of the owner's own resting orders fails; with CancelProvide the own resting orders encountered are removed by out events without fills; with DecrementTake own resting orders are matched but the self-traded quote is excluded from taker fees.",
 "every book and order",
 "All interleavings of own and foreign resting orders.",
 [S+"state/orderbook/book.rs: new_order"])
p("C13","Account order totals match the book",
 "For every account and perp market, bids_base_lots/asks_base_lots equal the sum of the account's resting order quantities on that side plus the quantities still in flight in unprocessed fill and out events; after all events are consumed they equal the quantities on the book.",
 "every history of place/cancel/consume operations by any number of accounts",
 "A bookkeeping slip needs a specific interleaving of partial fills, cancels and late event consumption.",
 [S+"state/orderbook/book.rs: new_order, cancel_order_by_id", S+"state/mango_account.rs: execute_perp_maker, execute_perp_out_event, add_perp_order, remove_perp_order"])
p("C14","Taker in-flight lots match pending fills",
 "For every account, taker_base_lots and taker_quote_lots equal the sums of base and quote of its not yet consumed fill events as taker.",
 "every history of place/cancel/consume operations",
 "Same as C13.",
 [S+"state/mango_account.rs: execute_perp_taker", S+"state/mango_account_components.rs: add_taker_trade, remove_taker_trade"])
p("C15","Base positions net to zero, open interest is exact",
 "After every history of operations the settled base positions of all accounts sum to zero (a consumed fill applies both legs) and the market's open_interest equals the sum of the absolute settled base positions.",
 "every history",
 "Global invariant over all accounts.",
 [S+"state/mango_account_components.rs: change_base_position", S+"instructions/perp_consume_events.rs"])
p("C16","Stale events cannot hit a reused order slot",
 "Consuming a fill or out event only modifies the open-order slot of the order the event refers to: if the slot has been freed and reused by another order, that order's slot stays intact.",
 "every slot state and event",
 "Needs a particular interleaving of cancel/reuse/consume.",
 [S+"state/mango_account.rs: execute_perp_maker, execute_perp_out_event", S+"state/mango_account_components.rs: PerpOpenOrder::is_active_for_market"])
p("C17","Cancel removes exactly the owner's order",
 "Cancelling by order id (or slot) removes the order if it is owned by the caller, credits its quantity back to the caller's side total and frees the slot; it fails without effect otherwise; no other order is affected.",
 "every book and account state",
 "All books.",
 [S+"state/orderbook/book.rs: cancel_order_by_id, cancel_order_by_slot, cancel_all_orders"])
p("C18","Perp trades are zero-sum up to fees",
 "For each fill the base change of maker and taker are opposite and the quote change of maker and taker are opposite except for the fees, which are exactly what the market accrues.",
 "every fill, price, quantity, fee rate",
 "Requires exact fixed point reasoning over all values.",
 [S+"state/mango_account.rs: execute_perp_maker, execute_perp_taker", S+"state/orderbook/book.rs: apply_fees"])
p("C19","Funding is bounded and zero-sum",
 "A funding update changes the long and short funding index by the same amount, bounded by price * max_funding * dt/day with dt at most one hour, never for clock going backwards; over any history without socialized losses both indexes move by the same amount, bounded by price * max_funding * elapsed time; a funding update leaves the sum of funding owed by all positions unchanged (what longs owe is owed to shorts), and settling a position moves exactly what it owes out of its quote.",
 "every price, time step, position, and history of funding updates",
 "Rounding and clamping for all 2^128 fixed point values.",
 [S+"state/perp_market.rs: update_funding_and_stable_price", S+"state/mango_account_components.rs: settle_funding, unsettled_funding"])
p("C20","Pnl settlement is zero-sum and limited",
 "Settling pnl between two accounts moves exactly the same amount out of A's perp quote position as into B's, moves the same amount of settle token from B to A (minus the settler fee), never exceeds A's positive pnl, B's negative pnl, A's settle limit, B's settle limit, nor B's max settle from health.",
 "every pair of positions, limits and fees",
 "Full input space.",
 [S+"instructions/perp_settle_pnl.rs", S+"state/mango_account_components.rs: available_settle_limit, apply_pnl_settle_limit, record_settle"])
p("C21","Settle limit windows",
 "Within one settle-limit window, the sum of settled pnl never exceeds the allowance; starting a new window resets the used amount; available limits are never negative.",
 "every position and every sequence of settlements/timestamps",
 "Histories.",
 [S+"state/mango_account_components.rs: update_settle_limit, settle_limit, available_settle_limit"])
p("C22","Loss socialization is covered by open interest",
 "Socializing a loss rejects positive losses, moves long and short funding symmetrically, and the total charged to all positions through funding never differs from the loss by more than rounding of open_interest units in the last place; with zero open interest nothing is socialized and zero is reported. Over every history of instructions (without forced closes of positions with unsettled funding) the quote of all positions after funding plus the accrued fees is conserved up to these residues.",
 "every loss, open interest and set of positions",
 "Fixed-point division rounding for all values.",
 [S+"state/perp_market.rs: socialize_loss"])
p("C55","Perp bankruptcy takes no more than the loss, in order",
 "Liquidating negative perp pnl fails unless the liqee's pnl (funding included) is negative; what is settled, taken over by the liqor against insurance tokens, and socialized never exceeds that negative pnl; the liqor takes over at most the limit it gave; the insurance fund pays at most what it has, at least the value (with liquidation fee) of what the liqor takes over and less than one native token more; a loss is socialized only when the fund is exhausted.",
 "every position, price, limit, fee, health result and insurance fund balance",
 "Rounding and the order of the three steps for all amounts.",
 [S+"instructions/perp_liq_negative_pnl_or_bankruptcy.rs: liquidation_action"])
p("C56","Perp base liquidation moves exactly what it reports",
 "Liquidating a base position requires no unprocessed fills, moves the same number of lots from liqee to liqor, never more than the liqee's position; the liqor pays the notional less the liquidation fee (plus for shorts), the liqee also pays the platform fee, the market accrues exactly the difference, which is never negative; taken over pnl is paid with the transfer less the pnl fee in tokens.",
 "every pair of positions, price, fees and amounts",
 "Signs and rounding for longs and shorts and all prices.",
 [S+"instructions/perp_liq_base_or_positive_pnl.rs: liquidation_action"])
p("C23","Bank totals equal the sum of positions",
 "A token bank's indexed_deposits equals the sum of all positive indexed positions and indexed_borrows the sum of absolute values of negative ones, after every history of deposits, withdrawals, transfers, fees, dusting and socialized losses smaller than all deposits.",
 "every history over any number of accounts, every index value",
 "Global invariant over all accounts with rounding and sign-crossing branches; only some branches are hit by examples.",
 [S+"state/bank.rs: deposit_internal, withdraw_internal, checked_transfer_with_fee, withdraw_loan_origination_fee"])
p("C24","Deposit-withdraw rounding is safe",
 "Depositing an amount and withdrawing it again never pays out more value than was put in beyond explicitly-bounded rounding; after depositing a native integer amount into an empty position the position is worth at least that amount and less than that amount plus one index unit.",
 "every amount and every index",
 "All fixed point values.",
 [S+"state/bank.rs: deposit_internal_wrapper, withdraw_internal, div_rounding_up", S+"i80f48.rs"])
p("C25","Loan origination fee only on new borrows",
 "A withdrawal charges the loan origination fee on exactly the part of the amount that increases the position's borrow, and never when the position stays non-negative; the fee is added to collected_fees. The fee on a loan made before (borrows realised by a spot order settlement) is the rate times this loan, paid from the position once.",
 "every position, amount and index",
 "Branch and rounding coverage over the whole space.",
 [S+"state/bank.rs: withdraw_internal, withdraw_loan_origination_fee"])
p("C26","Dusting only removes less than one native unit",
 "When a position is closed by a deposit or withdrawal, the amount lost by the user (and added to bank dust) is less than one native token, not negative (up to one index unit of rounding for deposits), and the position becomes exactly zero; positions marked as in use are never dusted away.",
 "every position, amount, index",
 "Rounding for all values.",
 [S+"state/bank.rs: dust_if_possible, deposit_internal, withdraw_internal", S+"state/mango_account.rs: token_decrement_dust_deactivate"])
p("C27","Net borrow window limit",
 "Within a net-borrow window, any borrow-increasing operation that ends with a passed check leaves net_borrows_in_window*price at most the per-window limit; a new window starts from zero.",
 "every history of deposits/withdrawals/timestamps",
 "Histories.",
 [S+"state/bank.rs: update_net_borrows, check_net_borrows, remaining_net_borrows_quote"])
p("C28","Deposit limit",
 "Depositing at most remaining_deposits_until_limit native tokens never makes the deposit limit check fail; token deposits that leave the account with a deposit, and transfers between accounts that increase the bank's deposits, succeed only within the limit.",
 "every bank state and amount",
 "Rounding/epsilon edge cases.",
 [S+"state/bank.rs: remaining_deposits_until_limit, check_deposit_and_oo_limit"])
p("C29","Interest: indexes only grow and lenders are not overpaid",
 "Index updates never lower deposit or borrow index, and the interest credited to depositors never exceeds the interest charged to borrowers (the rest is collected fees).",
 "every bank state, rates, time step",
 "Fixed point rounding for all values.",
 [S+"state/bank.rs: compute_index, compute_deposit_rate"])
p("C30","Interest rate curve",
 "The borrow rate is a monotone, piecewise linear function of utilization in [0,1] that takes the configured values at the configured utilizations, stays within the configured values, and is continuous up to rounding.",
 "every curve with monotone parameters and every utilization",
 "All values.",
 [S+"state/bank.rs: interest_rate_curve_calculator"])
p("C31","Max utilization is enforced",
 "enforce_max_utilization succeeds only if native borrows <= native deposits * max utilization.",
 "every bank state",
 "All values.",
 [S+"state/bank.rs: enforce_max_utilization_on_borrow"])
p("C32","Account slots are unique",
 "After any history of token/serum/perp position ensure/deactivate operations no two active slots of an account refer to the same token (serum market, perp market), the returned slot is the one of the requested index, other slots are unchanged, and ensure fails only when all slots are taken.",
 "every history and account size",
 "Histories.",
 [S+"state/mango_account.rs: ensure_token_position, create_serum3_orders, ensure_perp_position"])
p("C33","Account resizing preserves content",
 "Resizing the dynamic part of a mango account (byte-level overlapping moves) preserves every active token, serum, perp, openbook and conditional-swap slot and every perp open order with its slot index; requests that do not fit are rejected without changing anything.",
 "every account content and every old/new size combination",
 "Overlapping memmoves in both directions depend on the exact combination of size changes.",
 [S+"state/mango_account.rs: resize_dynamic_content"])
p("C34","Buyback fees accrue and expire",
 "With a fixed expiry interval, the buyback fees an account can use are exactly what a ledger of its earned fees, used oldest first, holds in the current and previous interval: each fee is usable for at least one and less than two intervals. A buyback never takes more MNGO than the account has, more fees than the DAO has or than were accrued, pays at most the MNGO value times the bonus, and never panics. (The promised minimum lifetime fails when the interval is changed.)",
 "every history of accrue/expire/reduce with arbitrary timestamps",
 "Histories.",
 [S+"state/mango_account.rs: accrue_buyback_fees, expire_buyback_fees, reduce_buyback_fees_accrued", S+"instructions/account_buyback_fees_with_mngo.rs"])
p("C35","Health post-check rule",
 "An instruction that ends with a health check succeeds iff the new initial health is non-negative or has not decreased; below -1000 native units a decrease is allowed as long as no whole number of native units lies in between. So health never goes from non-negative to negative, and over any number of instructions the total decrease below zero stays under one native unit.",
 "every pre/post health pair and every sequence of checked instructions",
 "All values including negative fixed point and the rounding branch; the grace amount could accumulate over many instructions.",
 [S+"state/mango_account.rs: check_health_post, check_health_post_checks"])
p("C36","Health types are ordered",
 "With init asset weights <= maint asset weights and init liab weights >= maint liab weights and conservative prices, init health <= liquidation-end health <= maint health: exactly without spot orders, up to a stated rounding term with spot orders on markets that do not share tokens. (False when several markets with open orders share a token.) Initial health values assets at the lower and debts at the higher of oracle and stable price, the others at the oracle price.",
 "every portfolio, prices and weights",
 "All portfolios and prices; the value of open spot orders is not monotone in the balance.",
 [S+"health/cache.rs: HealthCache::health, TokenInfo, Serum3Info, PerpInfo"])
p("C37","Liquidation state machine",
 "An account is marked as being liquidated only when its maintenance health is negative (or by bankruptcy), and leaves that state only once its liquidation-end health (or initial health, which is checked first by ordinary instructions) is above minus one native unit; while it is marked, ordinary instructions fail and so do deposits that do not end it. After any history a marked account was put there by such an event and every later instruction left its liquidation-end health at or below minus one native unit.",
 "every history of instructions and health values",
 "Histories.",
 [S+"state/mango_account.rs: check_liquidatable, maybe_recover_from_being_liquidated, check_health_pre", S+"instructions/token_deposit.rs", S+"instructions/token_liq_bankruptcy.rs"])
p("C38","Instruction gate",
 "The admin can set any gate; the security admin can only disable instructions and never re-enable one; a gate change touches only the bits that differ; an instruction whose gate is disabled is rejected (false for four gates that no code reads).",
 "every gate bit set and caller",
 "All 2^128 bit patterns.",
 [S+"instructions/ix_gate_set.rs", S+"state/group.rs: is_ix_enabled"])
p("C39","Flash loans are paired and repaid",
 "In every accepted transaction each flash loan begin moves the loans from the banks' own vaults into token accounts of the same mint that are no vaults, records amounts and balances, and is followed by exactly one matching flash loan end with the same account and vaults, no nested flash loan begins in between, and after the end the loan bookkeeping of all banks is reset; what is above the initial token account balance returns to the vault and the account is charged the rest plus the fees (as long as no account is listed twice; with a bank listed twice this fails).",
 "every transaction instruction sequence",
 "All instruction sequences.",
 [S+"instructions/flash_loan.rs"])
p("C40","Health regions are paired and checked",
 "In every accepted transaction that begins a health region a matching end follows, no disallowed instruction is executed in between, and at the end health is checked against the pre-region health.",
 "every transaction instruction sequence",
 "All instruction sequences.",
 [S+"instructions/health_region.rs"])
p("C41","Conditional swaps never exceed their totals",
 "Over any history of creations, starts, triggers, cancellations and other instructions, what a token conditional swap buys in total never exceeds its max_buy and what it sells, start incentives included, never its max_sell; the stored swap carries exactly these sums; a trigger that exhausts the swap removes it and a removed swap never trades again.",
 "every history on any number of accounts, with every amount and price",
 "Histories with rounding.",
 [S+"state/token_conditional_swap.rs", S+"instructions/token_conditional_swap_trigger.rs"])
p("C42","Amounts that bring health to zero",
 "spot_amount_taken_for_health_zero and spot_amount_given_for_health_zero return amounts that bring the given health to zero, up to the value of the smallest token unit and 2^-48, the balance counting as an asset when positive and as a liability when negative; paying the amount that perp_max_settle allows leaves the account's health (counting positive perp positions only) non-negative up to rounding, also with open spot orders.",
 "every health, balance, weights, prices, portfolio",
 "Piecewise linear inversion for all values.",
 [S+"health/cache.rs: spot_amount_taken_for_health_zero, spot_amount_given_for_health_zero, perp_max_settle"])
p("C43","Precise fixed-point division",
 "checked_div_30bit_precision(a,b) returns None only for b = 0 or a quotient out of range, and otherwise a value of the right sign within a factor [1-2^-30, 1+2^-31] and one unit in the last place of a/b; clamping to i64/u64 rounds down and saturates.",
 "every pair of I80F48",
 "2^256 input pairs.",
 [S+"i80f48.rs: checked_div_30bit_precision"])
p("C44","Oracle prices are fresh and certain, or from the fallback",
 "A bank's price is the reading of its own configured oracle, not older than configured and with a deviation of at most the configured fraction of the price; only when that reading is not acceptable it is the equally acceptable reading of the bank's own fallback oracle; otherwise there is no price. Perp markets have no fallback. Pyth prices are converted to native units with a relative error of at most 10^n/2^49. (For tokens priced through a liquidity pool the confidence check is too weak: refuted.)",
 "every oracle account content, slot, time and configuration",
 "All combinations of oracle types, ages, deviations, exponents and fallbacks.",
 [S+"state/bank.rs: oracle_price", S+"state/oracle.rs: check_staleness, check_confidence, oracle_state_unchecked_inner, power_of_ten", S+"state/perp_market.rs: oracle_price", S+"state/amm_cpi.rs"])
p("C45","Only the owner and his delegates act, delegates cannot take funds, frozen accounts stand still",
 "An account keeps its owner for ever. Apart from the public parts of the protocol (being liquidated, settled, cranked, receiving deposits) every use of an account was signed by the owner, by the permanent delegate he set last, or by the temporary delegate he set last, in time and less than a week later; editing, resizing and closing need the owner himself. A delegate's withdrawal goes to the owner's associated token account, closes the position and borrows nothing; forced withdrawals go to the owner; a delegate's flash loan runs only whitelisted programs until it is repaid. For a week after the admin froze an account only a fixed list of instructions uses it. (The documented shorter list is refuted: cancelling perp orders still works.)",
 "every history of instructions, signers, times and accounts",
 "Access rules are spread over a hundred instructions and depend on the whole history of edits and freezes.",
 [S+"state/mango_account.rs: is_owner_or_delegate, is_delegate, is_operational", S+"instructions/account_edit.rs", S+"instructions/account_toggle_freeze.rs", S+"instructions/token_withdraw.rs", S+"instructions/token_force_withdraw.rs", S+"instructions/flash_loan.rs", S+"accounts_ix"])
p("C46","Book depth queries",
 "impact_price returns the price of the worst order touched when filling the requested quantity from the valid orders, None exactly when the side is too thin; matched_amount returns the quote cost of taking up to a quantity in priority order; quantity_at_price returns the total valid quantity at or better than a price; matched_quantity returns the largest base quantity whose cost does not exceed the amount (its doc comment promises a quantity worth at least the amount, which is false).",
 "every reachable book side, oracle price, time and requested quantity/amount",
 "Infinitely many books; rounding and the interplay of invalid orders.",
 [S+"state/orderbook/bookside.rs: impact_price, quantity_at_price, matched_amount, matched_quantity"])
p("C47","A posted order does not cross the book",
 "A bid that gets posted after matching never rests at a price at or above a valid opposing order that it could have been matched with. (For asks limited by max_quote_lots this fails: the remainder is posted below the best bid.)",
 "every book, order, oracle price",
 "Depends on the interaction of quote limits, invalid orders and match limits over all books.",
 [S+"state/orderbook/book.rs: Orderbook::new_order"])
p("C50","Placing an order changes the book only as its events say",
 "After placing an order, each opposing resting order is left with its quantity minus what the new fill events report for it, and is gone exactly if it was completely filled or reported out; on the order's own side nothing changes except that the posted order is added and at most one expired and one worse-priced order are evicted, each with an out event. The book stays well formed.",
 "every well-formed book and every successful place call",
 "Every combination of fills, expiries, evictions and arena shapes; a lost or duplicated order only shows up as an account mismatch much later.",
 [S+"state/orderbook/book.rs: Orderbook::new_order", S+"state/orderbook/queue.rs: FillEvent, OutEvent"])
p("C48","Pending events can always be consumed",
 "For every pending fill and out event the account whose order it concerns still exists with an active perp position, so consuming the event succeeds whenever the order slot index exists on that account and, for fills, the taker's position is active. (Claimed without the two conditions this is false: a taker whose pending fills net to zero can deactivate the position, and a maker can cancel the filled order early and shrink its order slots; both block the event queue.)",
 "every reachable market state and every pending event",
 "Needs the combination of early cancel, deactivation or resizing with unconsumed events; a blocked queue only shows up in specific interleavings.",
 [S+"instructions/perp_consume_events.rs: perp_consume_events", S+"instructions/perp_deactivate_position.rs", S+"state/mango_account.rs: execute_perp_maker, execute_perp_taker, execute_perp_out_event, resize_dynamic_content"])
p("C49","Reduce-only orders only reduce",
 "A reduce-only order (or any order in a reduce-only market) never increases the magnitude of the account's effective base position by its fills and never flips its sign; in a reduce-only market this holds even if all open orders of the account on one side, including the newly posted one, get filled.",
 "every position, order, book, oracle price",
 "Depends on the interaction of pending taker fills, open orders on both sides and the matching over all books.",
 [S+"instructions/perp_place_order.rs: reduce_only_max_base_lots, perp_place_order"])
p("C51","The owner can always cancel a resting order",
 "In every reachable state, cancelling a resting order by its order id on behalf of its owner succeeds, removes exactly this order from the book, and reduces the owner's open lots on that side by its remaining quantity; partially filled orders with pending events included.",
 "every reachable market state and every resting order",
 "Slot reuse, early cancels, partial fills and evictions interleave in unboundedly many ways.",
 [S+"instructions/perp_cancel_order.rs", S+"state/orderbook/book.rs: cancel_order_by_slot", S+"state/mango_account.rs: add_perp_order, remove_perp_order"])
p("C52","Reduce-only and no-borrow modes hold",
 "A token withdrawal without the allow-borrow flag, or on a bank that is reduce-only or no-borrow, never creates or increases a borrow; a reduce-only token deposit never increases a deposit and at most repays the borrow, leaving less than one native token plus rounding; a transfer between two accounts in such a bank leaves the payer without debt and, when reduce-only, the receiver without a deposit, unless untouched.",
 "every bank, position and amount",
 "Rounding between native amounts, ceilings and shares for all values.",
 [S+"instructions/token_withdraw.rs", S+"instructions/token_deposit.rs", S+"state/bank.rs"])
p("C53","A token's claims are covered by its holdings",
 "For a token with one bank (with several it is false after a socialized loss, see C54): at any time the claims of all depositors plus dust and collected, not yet withdrawn fees, minus the debts of all borrowers, exceed the tokens held by at most an explicitly bounded rounding error per operation, in any history of deposits, withdrawals, fees, interest, socialized losses and fee withdrawals. A withdrawal never pays out more than the vault has, nor another amount than asked for (the whole tokens of the deposit when everything is asked for).",
 "every history",
 "Rounding errors in either direction accumulate over arbitrarily long histories.",
 [S+"state/bank.rs", S+"instructions/token_update_index_and_rate.rs", S+"instructions/token_liq_bankruptcy.rs", S+"instructions/admin_token_withdraw_fees.rs"])
p("C54","All banks of a token share their indexes",
 "A position has the same worth whichever bank of its token it is settled through: all banks of a token have the same deposit and borrow index after every history. (False after a loss is socialized: banks after the one that absorbs the loss keep the old deposit index until the next index update.)",
 "every history over any number of banks",
 "Depends on histories and the number of banks.",
 [S+"instructions/token_liq_bankruptcy.rs", S+"instructions/token_update_index_and_rate.rs", S+"instructions/token_add_bank.rs"])
p("C57","Perp positions count at their worst execution",
 "The health value of a perp position is at most its value after any part of its bids and any part of its asks has been filled at the prices health assumes (asset weights <= 1 <= liability weights), and equals the worst of these cases up to 2^-48; positive values count for at most the overall asset weight, negative values in full.",
 "every position, open order lots, partial fill, prices and weights",
 "Ranges over all partial executions of both sides.",
 [S+"health/cache.rs: PerpInfo::unweighted_health_unsettled_pnl, order_execution_case"])
p("C58","Skipping banks never overstates health",
 "Health computed while skipping missing banks and bad oracles is at most the health computed with all of them, when no spot orders are open. (The unconditional promise in the doc comment is false: with open orders on markets sharing a token it can be higher.)",
 "every account, every subset of provided banks and usable oracles",
 "All portfolios and subsets.",
 [S+"health/cache.rs: new_health_cache_impl, new_health_cache_skipping_missing_banks_and_bad_oracles"])
p("C59","Health is assets minus liabilities",
 "The assets and liabilities reported for an account (for the deposit limit and health ratio) are non-negative and their difference is the health, up to 2^-48 per token, in both ways of splitting.",
 "every portfolio and health type",
 "All combinations of signs of spot and perp balances.",
 [S+"health/cache.rs: health_assets_and_liabs"])
p("C60","An unhealthy account is always liquidatable in some phase",
 "The three liquidation phases exclude each other, the phase checks of the liquidation instructions agree with them, and every account with negative liquidation-end health is in one of them.",
 "every portfolio",
 "All portfolios; a gap would make some accounts impossible to liquidate.",
 [S+"health/cache.rs: in_phase1_liquidation, in_phase2_liquidation, in_phase3_liquidation, require_after_phase1_liquidation, require_after_phase2_liquidation"])
p("C61","Spot orders count at their worst outcome",
 "For every choice, market by market, of all bids or all asks being filled at the prices health assumes, the account afterwards is worth at least its health (up to 2^-48 per borrowed token); when no two markets share a token the health is the worst such outcome up to a stated rounding term.",
 "every portfolio, set of markets and outcome",
 "Exponentially many outcomes and all balances.",
 [S+"health/cache.rs: Serum3Info::health_contribution, compute_serum3_reservations"])
p("C62","Bankruptcy only when nothing is left",
 "When an account passes the checks of token bankruptcy, its health is at most the value of one native unit of each token minus the value of its borrows. (That its health must be negative is false: one native unit can be worth a lot.)",
 "every portfolio",
 "All portfolios; token bankruptcy has no health check of its own.",
 [S+"instructions/token_liq_bankruptcy.rs", S+"health/cache.rs: require_after_phase2_liquidation", S+"state/bank.rs: verify"])
p("C63","Maintenance weight shifts stay in range",
 "While a maintenance weight shift is active both weights stay between the old weight and the target and move only towards the target.",
 "every shift configuration and time",
 "All times and rounding.",
 [S+"state/bank.rs: maint_weights", S+"instructions/token_edit.rs"])
p("C64","Token positions in use stay open",
 "Over any history of opening and closing perp positions, open-orders accounts and conditional swaps, and of placing, withdrawing and resizing, the usage count of a token position is exactly the number of perp positions, spot open-orders accounts and conditional swaps that need it; while any of them exists the position stays open, and closing one of them never fails for lack of the position.",
 "every history",
 "Depends on the whole history of increments and decrements in different instructions.",
 [S+"state/mango_account.rs: deactivate_token_position, ensure_perp_position, deactivate_perp_position, create_serum3_orders, add_token_conditional_swap", S+"state/mango_account_components.rs: TokenPosition::increment_in_use, decrement_in_use"])
p("C65","Orders rest only inside the price limit",
 "An order that placing leaves resting on a perp book is priced, up to one unit of the fixed-point format, at most maint_base_liab_weight times the oracle price if it is a bid and at least maint_base_asset_weight times the oracle price if it is an ask.",
 "every book, order, market and oracle price",
 "All prices and roundings.",
 [S+"state/orderbook/book.rs: new_order", S+"state/perp_market.rs: inside_price_limit, lot_to_native_price"])
p("C66","Amounts and price of a conditional swap trigger",
 "For every positive price the traded amounts are defined, lie within both parties' limits, sell exactly floor(buy * price) and no purchase within the limits would sell more; the owner never pays more than the maker price per token, and the triggerer gets at least its minimum.",
 "every pair of limits, every price and every trigger",
 "All limits, prices and roundings; the inverse computation is only right by an arithmetic argument.",
 [S+"instructions/token_conditional_swap_trigger.rs: trade_amount, trade_amount_inner, action"])
p("C67","What a conditional swap trigger moves, and when",
 "A trigger moves exactly the bought tokens from triggerer to owner and the sold tokens back, less the taker fee, the difference going to the bank's fees; nobody else's balance changes; without permission (or in reduce-only mode) the owner's deposits or debt do not grow; only unexpired swaps trade, inside their price range or after their auction started, with both accounts ending healthy enough. (False for a sell token in deposits-reduce-only mode: there every trigger fails.)",
 "every state, trigger and price",
 "All balances, indexes, prices and roundings.",
 [S+"instructions/token_conditional_swap_trigger.rs", S+"state/token_conditional_swap.rs", S+"state/bank.rs: checked_transfer_with_fee"])
p("C68","Prices do not depend on which accounts the caller passes",
 "Whatever accounts a caller passes to a health check and in whatever order, a bank or perp market that gets used is one of the group for the requested token or market, and its price is the one determined by the chain's state; different callers and both retrievers obtain the same price, or none; with the documented account layout, banks left out, exactly the passed banks are found, and with all relevant oracles passed the price is found whenever it exists; an open orders account that gets used is the one with the address recorded in the account.",
 "every list of passed accounts, every chain state",
 "Account lists are chosen by the caller, possibly maliciously.",
 [S+"health/account_retriever.rs: FixedOrderAccountRetriever, ScanningAccountRetriever, new_fixed_order_account_retriever_with_optional_banks"])
p("C69","Spot liquidation moves the stated amounts at the stated price",
 "Only an account that is liquidatable and has no liquidatable orders can be liquidated, by a healthy liqor. At most the requested and at most the owed liab tokens move from liqor to liqee; the liqee gives their oracle value times both tokens' liquidation and platform fees, the liqor receives the value times the liquidation fees, the bank keeps the rest; balances change by these amounts and nothing is created or lost, all up to rounding. If the account is not liquidatable nothing moves. (That the liqee never gives more than it has is false by rounding.)",
 "every pair of banks, prices, fees, weights, positions and requested amount",
 "All prices, indexes, fees and roundings.",
 [S+"instructions/token_liq_with_token.rs: token_liq_with_token, liquidation_action", S+"health/cache.rs: adjust_token_balance, require_after_phase1_liquidation"])
p("C70","Spot liquidation and the liqee's health",
 "While the liquidation price leaves a health gain per token, a liquidation does not lower the liqee's liquidation-end health and does not push it above zero, up to rounding; it goes on until the request, the borrow, the asset or health zero is reached; the account stays marked exactly while its health is at most minus one native unit. If the fees exceed the gap between the weights nothing is moved (so progress cannot be promised).",
 "every pair of banks, prices, fees, weights, positions and requested amount",
 "All prices, indexes, fees and roundings, with non-linear health.",
 [S+"instructions/token_liq_with_token.rs: liquidation_action", S+"state/bank.rs: verify"])
p("C71","Insurance pays before depositors in a token bankruptcy",
 "A bankrupt token borrow is first bought back by the insurance fund, at the oracle price plus the liquidation fee (one for one in the insurance token itself), paying at most what the fund has and nothing for uninsured tokens; the tokens go to the liqor, who takes over the debt bought. Depositors pay only when the fund has nothing left, then exactly the remaining debt, and the borrow is gone; otherwise no index changes. A debt is left over only if the fund still has money and the caller asked for less. (That no more than asked for is bought back is false by up to one insurance token's worth.)",
 "every bank list, prices, fund balance, positions and requested amount",
 "All prices, indexes, balances and roundings, several banks of a token.",
 [S+"instructions/token_liq_bankruptcy.rs: token_liq_bankruptcy", S+"state/mint_info.rs: elligible_for_group_insurance_fund"])
p("C72","Force-closing borrows is fair to both sides",
 "The borrows of a token can be closed against the will of the borrower only when the token is in force-close mode, by a liqor who signed, is not being liquidated, holds a deposit of the token and ends with non-negative init health. Exactly the least of the asked amount, the debt and the liqor's deposit is closed; the borrower gives the oracle value of it in the asset token plus the fees, the liqor gets its part, the bank the rest; the liqor never ends up owing the token and no tokens appear or vanish. The borrower's liquidation-end health does not become worse, up to rounding, if it has no reserved spot orders and the closed amount counted as a borrow; the being-liquidated mark is only ever removed. (Maintenance health can become negative, and health can drop if perp pnl in the token outweighed the borrow.)",
 "every pair of banks, settings with weights of deposits at most and of borrows at least one, prices, health caches, positions and requested amount",
 "All prices, indexes, weights, balances and roundings.",
 [S+"instructions/token_force_close_borrows_with_token.rs: token_force_close_borrows_with_token"])
p("C73","Collateral fees are charged for elapsed time only, and to borrows only",
 "Nobody is charged while fees are off, on the first call, or before an interval has passed since the last due call; a charge covers the time since then, at most two intervals, so in any history no second is paid for twice. The fee on a collateral is its balance (with spot orders) times the used part of the assets, the time and the daily rate; the sum at oracle prices is paid by the tokens with negative maintenance health in proportion to it, from the account's positions into the banks' fees, in total never more than the sum and less only by rounding. Accounts with debts below 100$ are exempt if the settle token of each of their perp markets is at the place of their token list that is its token index. (Otherwise they are not: perp debts are valued at the price of another token, and accounts with few tokens cannot be charged at all.)",
 "every sequence of calls at any times, with any settings, prices and positions between them",
 "Histories of calls, all prices, rates, weights and roundings.",
 [S+"instructions/token_charge_collateral_fees.rs: token_charge_collateral_fees_internal", S+"health/cache.rs: assets_and_liabs"])
p("C74","Spot orders move exactly the tokens that move",
 "Placing a spot order changes the account's position of the paid token by exactly what left the vault, without a fee, and the other position not at all. Settling, by the owner or by a liquidator's cancel, adds to each position what arrived in the vault less the loan origination fee, which is the fee rate times the borrowed tokens no longer in the open orders account and goes to the bank's fees; referrer rebates go to fees or to the account as asked. Bank totals follow the positions.",
 "every state of both banks, positions and orders, any behaviour of the external program, any vault balances",
 "All indexes, amounts and roundings, and whatever the order book program does.",
 [S+"instructions/serum3_place_order.rs: apply_vault_difference, apply_settle_changes", S+"instructions/serum3_settle_funds.rs: charge_loan_origination_fees", S+"instructions/serum3_liq_force_cancel_orders.rs"])
p("C75","Loan fees of spot orders are charged for used loans, once, and cannot be evaded",
 "In every history of an account in a market, in base and quote tokens: loan fees are charged for no more tokens than trades took from the open orders account, and for no more than the debt made when placing; so orders that are placed, cancelled and settled cost no fee. Conversely every borrowed token was charged for, or came back by settling, or is still on record, and the record never exceeds what is in the open orders account after settling.",
 "every sequence of placing, settling, forced cancels and anything the external program does, with any state of banks and positions in between",
 "Unbounded histories and interleavings with trades.",
 [S+"instructions/serum3_place_order.rs: apply_vault_difference", S+"instructions/serum3_settle_funds.rs: charge_loan_origination_fees"])
p("C76","Recorded order prices and potential tokens cover the resting orders",
 "Every resting bid or ask of an account lies between the lowest and highest price recorded for its side, in every history in which the order book only removes orders on its own. A bank's potential tokens are the sum over all open orders accounts (one bank per token), and an emptied open orders account has none.",
 "every history of placing, settling, forced cancels, closing and removals by the order book, any number of accounts",
 "Unbounded histories over many accounts and orders.",
 [S+"instructions/serum3_place_order.rs: serum3_place_order, update_bank_potential_tokens", S+"state/bank.rs: update_potential_serum_tokens"])
p("C77","Spot orders obey the limits and the health rule",
 "A spot order is placed only with a positive price, in a market that is not reduce-only, within the price band if it rests; the received token stays within its deposit limit; a borrow for it needs a bank that allows borrows and stays within utilisation, net borrow and deposit limits. In a reduce-only token, position and potential of all the account's markets stay below one native token. Outside a health region the account is not being liquidated and its init health afterwards, of its actual new positions and orders, is nonnegative or not lower.",
 "every account, set of positions and orders, banks, prices, and behaviour of the order book",
 "All states, limits and roundings.",
 [S+"instructions/serum3_place_order.rs: serum3_place_order", S+"health/cache.rs: recompute_serum3_info, adjust_token_balance, total_serum3_potential"])
p("C78","Liquidators cancel spot orders only of liquidatable accounts",
 "Spot orders are cancelled without the owner only if the account is liquidatable or frozen or the market is in force-close mode; otherwise nothing changes. The mark of being liquidated afterwards follows the health of the actual new positions and orders.",
 "every account state, health, and behaviour of the order book",
 "All states and roundings.",
 [S+"instructions/serum3_liq_force_cancel_orders.rs: serum3_liq_force_cancel_orders"])
p("C79","Perp base liquidation only touches liquidatable accounts and stays within what was asked",
 "Liquidating a perp base position or positive perp pnl needs the liqor's signature, a liqor that is not being liquidated itself, and a liqee without open orders that is below zero maintenance health or already being liquidated; otherwise nothing changes. The lots taken are at most the requested number, in the direction that closes the position, never through zero; the pnl taken over is between zero and the requested maximum and paid for in settle tokens less the fee. The liqee's health never gets worse, it is computed from the actual new position, and the mark is removed exactly when it ends above minus one.",
 "every liqee and liqor position, market setting, price, and requested maxima (including i64::MIN)",
 "Five adaptive steps with clamps and roundings; all signs and maxima.",
 [S+"instructions/perp_liq_base_or_positive_pnl.rs: perp_liq_base_or_positive_pnl, liquidation_action", S+"health/cache.rs: recompute_perp_info, adjust_token_balance"])
p("C80","Perp base liquidation takes at most one lot too much",
 "After a liquidation of a perp base position or positive pnl the LiquidationEnd health of the liqee is no higher than before or than what the last lot gives, up to rounding. This needs the overall asset weight of the market to be at most one less the pnl fee, which is not checked.",
 "every liqee balance and position, market setting, price, and requested maxima",
 "The amount needed is solved for through piecewise linear health with rounding, in up to five steps.",
 [S+"instructions/perp_liq_base_or_positive_pnl.rs: liquidation_action", S+"health/cache.rs: health_contribution, unweighted_health_unsettled_pnl"])
p("C81","Perp base liquidation takes enough",
 "If position and requested maximum allowed taking more lots, the liquidation ended because LiquidationEnd health reached minus half a unit, less what one lot gives, or the market's overall weight is zero and the requested pnl was used up or the health of the position is within rounding of zero.",
 "every liqee balance and position, market setting, price, and requested maxima",
 "As C80; skipped steps and roundings at every boundary.",
 [S+"instructions/perp_liq_base_or_positive_pnl.rs: liquidation_action"])
p("C82","Liquidating negative perp pnl moves exactly what it reports",
 "perp_liq_negative_pnl_or_bankruptcy by a liqor that is not being liquidated acts only on an account that is liquidatable (maint health below zero, or marked and LiquidationEnd health at most minus one unit) and has no open orders, settleable tokens or base positions left to liquidate first; otherwise it changes nothing but possibly the mark. The liqee's negative pnl (after funding) is reduced by three amounts that never overshoot zero: pnl settled against the liqee's settle tokens, pnl the liqor takes over, and loss spread over the market. The liqor's pnl falls by the first two, which stay within the requested maximum; for the second it gets insurance tokens worth the amount with the liquidation fee, rounded up to one token, at most what the insurance vault holds and none if the market may not use it; a loss is spread only when these insurance tokens are used up, and changes the funding of both sides by the same amount per lot of open interest. The settle and insurance tokens of both accounts change by the reported amounts up to the rounding of the index; health is then taken from the new state.",
 "all liqee and liqor positions, markets, prices, fees, settle limits, insurance vaults, requested amounts, insurance token equal to the settle token or not",
 "Which of the three steps happens depends on settle limits, health, vault balance and the requested maximum; every combination and rounding counts.",
 [S+"instructions/perp_liq_negative_pnl_or_bankruptcy.rs: perp_liq_negative_pnl_or_bankruptcy",S+"instructions/perp_liq_negative_pnl_or_bankruptcy.rs: liquidation_action"])
p("C83","Perp bankruptcy goes as far as health needs, no further",
 "perp_liq_negative_pnl_or_bankruptcy never lowers the liqee's LiquidationEnd health. The insurance fund and the other traders pay only while that health is negative, and never lift it above zero by more than one smallest unit (2^-48). Settling uses only what the spot balances and positive perp positions can pay in maint health: nothing if that health is not positive, and it is not made negative beyond one smallest unit. If the liqor offers to take over all of the negative pnl, then afterwards no more of it is left than the price of one insurance token and rounding, or the health has come up to zero but that amount.",
 "as C82",
 "The amounts solve a piecewise linear equation in health with fixed-point division on each step.",
 [S+"instructions/perp_liq_negative_pnl_or_bankruptcy.rs: liquidation_action",S+"health/cache.rs: perp_max_settle",S+"health/cache.rs: spot_amount_given_for_health_zero"])
p("C84","Init weights fall with the size of deposits and borrows as configured",
 "Scaling never raises an init asset weight nor lowers an init liability weight. It starts only when the quote value of all deposits (and tokens in spot orders), or of all borrows, passes the configured start; then the collateral value of all deposits together stays at the init weight times the start, and the liability weight grows in proportion to the borrows, up to relative errors of the floating point operations of about 2^-49. More deposits, orders or borrows or a higher price never make a weight more favourable. Updating a health cache uses the same weights as building it when oracle and stable price agree, and never a lower asset weight otherwise.",
 "every bank state, price, weight and start value",
 "The factor goes through four rounded floating point operations and a conversion to fixed point, for any magnitude.",
 [S+"state/bank.rs: scaled_init_asset_weight, scaled_init_liab_weight", S+"health/cache.rs: adjust_token_balance, new_health_cache_impl"])
p("C85","Withdrawing never leaves an account unhealthy, nor pays what it should not",
 "token_withdraw pays at most what the vault holds; borrows only if the caller allows it, the bank is not in reduce-only mode, the price can be trusted, and utilization and net borrow limits hold; a delegate can only empty a whole position to the owner's own associated token account. Outside a health region the account must not be (or stop) being liquidated before, and afterwards its init health is at least zero or no worse than before, judged on the tokens whose banks and oracles were usable; if the withdrawn token is not among them nothing may be borrowed and health must be at least zero without it. That judged health is the one of the account's new state, and without open spot orders the same holds for health with all tokens, whatever banks the caller leaves out. (It fails when oracle and stable price differ and deposits are weight-scaled, and with open spot orders.)",
 "every account, bank, price, set of banks left out and requested amount",
 "Callers choose which banks to leave out; balances, weights and roundings are arbitrary.",
 [S+"instructions/token_withdraw.rs: token_withdraw", S+"state/mango_account.rs: check_health_pre, check_health_post, check_health_post_checks_strict", S+"health/cache.rs: adjust_token_balance"])
p("C86","Depositing only helps",
 "token_deposit takes no more than asked for, and in reduce-only mode no more than repays the loan; the balance never falls; it opens a position only at a trusted price, and token_deposit_into_existing neither opens nor closes one. An account being liquidated must end above minus one LiquidationEnd health, counting all of its tokens, and then loses the mark. If the group limits deposits, all banks must be passed and the init-weighted deposits stay within the limit. Without open spot orders a deposit lowers neither maintenance nor LiquidationEnd health. (With open spot orders it can, and can make the account liquidatable.)",
 "every account, bank, price, set of banks left out and amount",
 "The code skips the health check because deposits can only increase health; whether they do depends on every combination of balances and orders.",
 [S+"instructions/token_deposit.rs: deposit_into, token_deposit, token_deposit_into_existing", S+"health/cache.rs: health_assets_and_liabs_stable_assets"])
p("C87","Settling pnl moves what it says and does not hurt the accounts",
 "perp_settle_pnl moves a positive amount from the profitable account's perp position to the losing account's one and the same amount of settle tokens back, after funding: not more than the one's profit, the other's loss, and what the loser's spot balances and profitable positions can pay in maint health, which was positive and stays at least zero up to rounding. The winner is paid the amount less the fee, the signing settler the fee, no loan fee is charged, and the bank totals change as the balances do. The loser's health does not change up to rounding if its fills were processed; the winner's does not fall by more than the fee, at the settle token's weighted price. (The fee can make the winner liquidatable, and unprocessed fills can make the loser's health fall.)",
 "every pair of accounts, settler (also one of the two), market, bank state, prices and weights",
 "Health goes through weights, balances and funding of arbitrary accounts; settling is open to anyone and has no health check afterwards.",
 [S+"instructions/perp_settle_pnl.rs: perp_settle_pnl",S+"health/cache.rs: perp_max_settle, new_health_cache"])
p("C88","Processing perp events and cancelling orders can hurt nobody but the maker, and it by a known amount",
 "Processing an event of a perp market leaves the health of every account as it was except that of the account whose resting order the event is about. A fill does not lower the maker's health of any kind if the order's price is not worse than the price health counts with (the higher of oracle and stable price for a bid, the lower for an ask; the oracle price for maint and liquidation-end health) after the maker fee, and otherwise by no more than that difference and fee, at the settle token's weighted price, up to rounding. An out event, a cancel by id or client id and a cancel-all lower nobody's health. (An order that passed the health check can make its owner liquidatable when it is filled at a price worse than the oracle's.)",
 "every history of a perp market, every account, its other positions, weights with a haircut, prices and health type; accounts without reserved spot order funds",
 "Which event is processed when, in which book and position state, is up to the history of all users; health sums over arbitrary portfolios.",
 [S+"instructions/perp_consume_events.rs",S+"state/mango_account.rs: execute_perp_maker, execute_perp_taker, execute_perp_out_event",S+"health/cache.rs: PerpInfo::unweighted_health_unsettled_pnl"])
p("C89","A perp order is placed only by the owner and leaves the account healthy or not worse off",
 "perp_place_order needs the owner's or delegate's signature and nonnegative amounts. It is one step of the market's history (so all of C13 to C18 hold after it), with funding updated first; a reduce-only order, or any order in a reduce-only market, brings the position closer to zero without crossing it. Outside a health region it fails if the account is being liquidated and both its init and its liquidation-end health are -1 or less, clears the mark otherwise, and afterwards the account's init health, with the fills, fees and the posted order, is at least zero or not lower than before (below -1000: not by a whole unit). This also holds (up to 2 units of 2^-48) for the health with all tokens, including those whose banks or oracles were left out of the check.",
 "every book, market, queue, account and portfolio, order and set of passed banks; the last claim for accounts without reserved spot order funds",
 "The effect on health depends on book, fees and portfolio at once; the checked health leaves out tokens.",
 [S+"instructions/perp_place_order.rs: perp_place_order",S+"state/orderbook/book.rs: new_order",S+"state/mango_account.rs: check_health_pre, check_health_post",S+"health/cache.rs: recompute_perp_info"])
p("C90","Orders are force-cancelled only when allowed, and to nobody's harm",
 "perp_liq_force_cancel_orders removes orders only if the account is frozen, the market is in force-close mode, the account is marked and its liquidation-end health is -1 or less, or it is not marked and its maint health is negative; otherwise book and account stay. It removes only orders of that account, its order totals fall by exactly what was removed, its base, quote and unprocessed amounts stay, no kind of health is lowered, the result is again a state of the market's history, and the account is marked afterwards exactly if it was liquidatable and its liquidation-end health still is -1 or less.",
 "every reachable market, account, portfolio, prices and limit; the health claim for accounts without reserved spot order funds",
 "Whether it may act depends on health of arbitrary portfolios, what it removes on the history of the book.",
 [S+"instructions/perp_liq_force_cancel_orders.rs: perp_liq_force_cancel_orders",S+"state/orderbook/book.rs: cancel_all_orders",S+"state/mango_account.rs: check_liquidatable, maybe_recover_from_being_liquidated"])
p("C91","The security admin can only make a token safer",
 "If token_edit succeeds for a signer other than the group admin, the signer is the security admin, and the edit changes nothing but these settings of the token's banks: the initial asset weight stays or becomes 0, the collateral fee and the platform liquidation fee stay or become 0, reduce-only stays or becomes stricter (off < no borrows < no deposits or borrows), and the maintenance weights go on as scheduled or stay at their present values. Oracles, liability weights, limits, fees, the deposit limit, force-close, force-withdraw and the insurance flag stay. So no account's maintenance health changes and no account's initial or liquidation-end health rises. (The security admin cannot always stop a scheduled shift of maintenance weights: when the shift leads above the initial liability weight, the edit is refused.)",
 "every token with any number of banks, every combination of arguments, clock and signer; every account, its spot orders and perp positions",
 "There are 39 optional arguments, each with its own rule for who may set it; tests try a few. What health does depends on the whole portfolio.",
 [S+"instructions/token_edit.rs: token_edit",S+"state/bank.rs: maint_weights, verify",S+"health/cache.rs: health"])
p("C92","The security admin can only make a market safer",
 "If perp_edit_market or serum3_edit_market succeeds for a signer other than the group admin, the signer is the security admin, and it changes nothing but: reduce-only may be switched on, and the initial overall asset weight of a perp market may become 0. Setting that weight to 0 leaves maintenance health as it is and raises no account's initial or liquidation-end health, if spot orders reserve no tokens. (With spot orders it can raise initial health.) Force-closing is only switched on by the group admin, and only for a market or token that is reduce-only (but reduce-only can be taken back while force-closing goes on).",
 "every market, every combination of arguments and signer; every portfolio with any subset of its perp markets edited",
 "Each argument has its own rule, and health depends on the whole portfolio.",
 [S+"instructions/perp_edit_market.rs: perp_edit_market",S+"instructions/serum3_edit_market.rs: serum3_edit_market",S+"health/cache.rs: health"])
p("C93","All banks of a token share valid settings",
 "Whatever sequence of edits, added banks and index updates follows the listing of a token, all its banks have equal settings but for the fallback oracle (an added bank takes the main oracle instead of the fallback), although edits verify only the first bank; all settings stay in their ranges (weights, rates, fees not negative, utilizations ordered and at most 1, reduce-only 0 to 2, a consistent shift; a floating-point setting may be NaN, which passes every check). After every listing and edit the initial asset weight is at most the maintenance one, the maintenance liability weight at most the initial one, disabled liquidation comes with reduce-only and a maintenance asset weight of 0, forced withdrawal with disabled liquidation. This order persists at every time if every scheduled shift leads to ordered weights; the program does not check that, and otherwise it can be lost.",
 "every listing, every finite history of edits by anyone with any arguments, added banks and updates at any times",
 "The settings are checked after single edits only, on one bank; that all banks agree at all times is an invariant of histories.",
 [S+"instructions/token_edit.rs: token_edit",S+"instructions/token_add_bank.rs: token_add_bank",S+"instructions/token_register.rs: token_register",S+"instructions/token_update_index_and_rate.rs: token_update_index_and_rate",S+"state/bank.rs: verify, from_existing_bank"])
p("C94","Fast listings are bounded and harmless",
 "With token_register_trustless, in no calendar week (of seven days since the epoch) more tokens are listed than the group ever allows per week; in a new week a listing succeeds if any is allowed, and within a week while fewer than allowed were made. Only the group admin and the fast listing admin can list so, and their listing passes the checks. The listed token counts for nothing as collateral in any kind of health and cannot be borrowed (reduce-only) until the group admin edits it, whatever the security admin does and however often it is updated.",
 "every sequence of listings at nondecreasing times and of changes of the limit; every history of the token without an edit by the group admin",
 "The bound is about sums over all histories and all week boundaries.",
 [S+"instructions/token_register_trustless.rs: token_register_trustless",S+"instructions/group_edit.rs: group_edit",S+"state/bank.rs: verify"])
p("C95","An update moves the stable price towards the oracle price, and not too fast",
 "An update of the stable price less than 10 seconds after the last changes nothing. Otherwise the new stable price lies between the old one and the oracle price, and it rises by at most a factor 1 + g and falls by at most a factor 1 - g, up to rounding (relative 2^-50), where g is the growth limit per second times the seconds since the last update, at most 600; if the delay price is twice the stable price or more, or half of it or less, then the same with a quarter of g. A pending reset takes the oracle price as soon as it is positive. The 24 delay prices change only when a new delay interval has begun, and then some of them take one new value, which lies between the latest delay price and an average of oracle prices and differs from the former by at most the delay growth limit. With a positive stable price an update never fails (but after 136 years without a change of the delay interval); with the stable price and the oracle price both zero it panics.",
 "every stored state, time and oracle price (doubles that are not negative, bit-exact rounding)",
 "Rounding and the settings make the space unbounded; the existing tests run a few price series.",
 [S+"state/stable_price.rs: StablePriceModel, update, reset_to_price, growth_clamped",S+"instructions/token_update_index_and_rate.rs: token_update_index_and_rate",S+"state/perp_market.rs: update_funding_and_stable_price"])
p("C96","The stable price is bounded by the time that passed",
 "Over any history of updates, however frequent, at whatever oracle prices, the stable price is at most its start times (1 + L)^T and at least its start times (1 - L T), up to rounding (relative 2^-50 each second), with L the growth limit per second and T the seconds passed; so a manipulated oracle cannot move the price used for initial health within a short time. It never leaves a range that holds it and all the oracle prices. The delay price does not have the last property: with updates more than 10 minutes apart the average it is set from is too low, so that it falls although the oracle price never moves.",
 "every finite history of updates with any times (also decreasing) and any oracle prices",
 "The bound is over all histories; the error of the delay price shows only with sparse updates.",
 [S+"state/stable_price.rs: StablePriceModel, update"])
p("C97","Paying the fees of a perp market",
 "If perp_settle_fees succeeds, only a losing position pays: at most its loss, the fees the market has accrued and the maximum the caller asks for. What is paid moves from the accrued to the settled fees of the market and raises the quote of the position by as much; the settle token balance falls by that amount, up to rounding, without loan fee, and the totals of the bank follow. Nothing else of the account or market changes; if nothing is paid, no balance changes. If anything was paid, initial health is not negative afterwards, with every oracle usable. No kind of health changes but for rounding (accounts without reserved spot order funds and without unprocessed fills; without scaling of the settle token's weights).",
 "every market, account, bank, price and requested maximum",
 "The amounts are products and roundings of unbounded inputs; health depends on the whole portfolio.",
 [S+"instructions/perp_settle_fees.rs: perp_settle_fees",S+"state/perp_market.rs: PerpMarket",S+"health/cache.rs: health"])
p("C98","A passing health check means what it says",
 "If health_check passes, then whatever banks and oracles the caller left out, the health of that kind computed with all of them is at least the given minimum; for the health ratios the same holds if the minimum is positive (accounts without reserved spot order funds). Only positions that are not negative, and not the settle tokens of perp positions, can be left out. A ratio of m means that assets exceed liabilities by m percent of the liabilities. With reserved spot order funds, and for ratios with a negative minimum, the first claim is false.",
 "every account, every set of banks and oracles left out, every minimum and kind of health",
 "The claim compares two computations over the whole portfolio, for every subset of left-out accounts.",
 [S+"instructions/health_check.rs: health_check",S+"health/cache.rs: health_ratio, health_assets_and_liabs, new_health_cache_skipping_missing_banks_and_bad_oracles"])
p("C99","Forced withdrawals",
 "token_force_withdraw needs no signature but the force-withdraw flag of the bank. It pays all whole tokens of a position that is not negative to a token account of the owner and takes no fee; less than one token remains, never a borrow; it fails if the vault holds too little or borrows would exceed deposits; net deposits fall by the value at the oracle price. Health is not checked: no kind of health rises; it falls by at most the paid tokens and one more at the higher weighted price of the token, and not at all if the token has no asset weight and no perp position settles in it (accounts without reserved spot order funds). The flag can only be set for a token with asset weights of zero. If a losing perp position settles in the token, a healthy account can become liquidatable.",
 "every account, bank, vault, price, caller; every portfolio",
 "The effect on health depends on the whole portfolio; amounts round.",
 [S+"instructions/token_force_withdraw.rs: token_force_withdraw",S+"state/bank.rs: withdraw_without_fee, enforce_borrows_lte_deposits",S+"health/cache.rs: health"])
p("C100","Fees of perp markets over their history",
 "Over every history of a settle token with any number of perp markets: a market has settled exactly what positions paid to it, and the administrator has withdrawn at most that; a withdrawal pays the whole tokens settled and not yet withdrawn, or what the vault holds if less, is never impossible, and repeated at once pays nothing; the vault covers, up to the stated rounding, the claims of the depositors, the dust and fees of the bank and the unpaid fees of all perp markets together.",
 "every history of instructions on a token with one bank and its perp markets",
 "The claim is about the sum of everything ever paid and withdrawn, with rounding on every step.",
 [S+"instructions/admin_perp_withdraw_fees.rs: admin_perp_withdraw_fees",S+"instructions/perp_settle_fees.rs: perp_settle_fees",S+"state/perp_market.rs: fees_settled, fees_withdrawn"])
p("C101","Accounts are closed only when empty",
 "Outside testing groups an account is closed only if it is not being liquidated and has no token, spot order or perp position; it then has no conditional swap left, no order of it rests on any perp book, and no pending event is going to change an order of it.",
 "every history of slot operations; every history of a perp market",
 "account_close looks only at the position slots; that swaps, resting orders and events imply positions is an invariant of all histories.",
 [S+"instructions/account_close.rs: account_close",S+"instructions/perp_deactivate_position.rs: perp_deactivate_position"])
p("C102","Sequence numbers prevent replays",
 "A sequence check succeeds only with the owner's signature, on an account that is not frozen, and with exactly the number expected; the number then grows by one (modulo 256) and nothing else changes it. So two successful checks with the same number have at least 255 others between them, unless the account was closed and created again, which starts from zero and allows the replay of old transactions.",
 "every history of instructions on any number of accounts",
 "It is about all histories between two executions.",
 [S+"instructions/sequence_check.rs: sequence_check",S+"state/mango_account.rs: sequence_number"])
p("C103","Buying back fees with MNGO is a fair swap with a solvent DAO",
 "The instruction moves MNGO from the account to the DAO account and quote tokens back, the same amounts on both sides and in the totals of the banks; neither payer goes into debt or pays more than it has, and no fees are collected. The quote tokens at the higher of oracle and stable price are worth no more than the MNGO at the lower of its two prices times the bonus, no more than asked for, and no more than the earned fees that have not expired, which are used up by the value. The account cannot be the DAO account itself, and the DAO ends with no debt in any token, no perp position and no spot orders. If there is nothing to buy back or no MNGO, nothing moves.",
 "every account, DAO account, pair of banks, prices, bonus, amount and time",
 "Amounts round four times, and positions round again in the banks.",
 [S+"instructions/account_buyback_fees_with_mngo.rs: account_buyback_fees_with_mngo",S+"state/bank.rs: deposit, withdraw_without_fee"])
p("C104","Indexes of tokens and markets mean one thing",
 "After every history of registrations and removals a token index stands for one mint and a mint for one index; a token has between one and six banks with different numbers, one of them 0, and its mint info lists exactly them; no two spot markets share an index or an external market, no two perp markets an index. As long as the group is not in testing mode tokens and markets never go away or change their meaning, and the tokens of a spot market are those its external market trades. A free index and mint can be registered. Fast listings of spot markets have a price band of 1, or 19 for tokens without borrows and asset weight. In testing groups a token can be removed while a market trades it, and its index given to another mint.",
 "every history of registrations and removals of tokens, banks, spot markets and perp markets",
 "It is an invariant of all histories; accounts refer to tokens and markets by index only.",
 [S+"instructions/token_register.rs: token_register",S+"instructions/token_add_bank.rs: token_add_bank",S+"instructions/token_deregister.rs: token_deregister",S+"instructions/serum3_register_market.rs: serum3_register_market",S+"accounts_ix/serum3_register_market.rs: Serum3RegisterMarket",S+"accounts_ix/perp_create_market.rs: PerpCreateMarket",S+"state/mint_info.rs: MintInfo"])
with open('/verif/properties.jsonl','w') as f:
    for x in P: f.write(json.dumps(x)+"\n")
print(len(P))
