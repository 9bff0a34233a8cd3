#!/usr/bin/env python3
"""Writes /verif/MANIFEST.json"""
import json
C=[]
def c(prop,status,theorems,note=""): C.append(dict(property=prop,status=status,theorems=theorems,note=note))
c("C01","proved",["C01_refines_ordered_map","C01_insert","C01_remove"],"")
c("C02","proved",["C02_iteration_sorted","C02_min_max"],"")
c("C03","proved",["C03_no_slot_leak","C03_not_full_insert_succeeds"],"")
c("C04","proved",["C04_remove_one_expired","C04_remove_one_expired_side"],"")
c("C05","proved",["C05_remove_worst","C05_remove_worst_combined"],"")
c("C06","proved",["C06_key_roundtrip","C06_price_time_priority","C06_ids_unique","C06_fixed_price","C06_pegged_offset","C06_pegged_data_roundtrip"],"")
c("C07","proved",["C07_combined_iteration"],"")
c("C08","proved",["C08_fifo","C08_pop_order"],"")
c("C09","proved",["C09_limits","C09_fill_prices","C09_priority","C09_partial_fills","C09_totals","C09_takes_everything"],"")
c("C10","proved",["C10_post_only_never_fills","C10_post_only_never_crosses","C10_posted_price"],"")
c("C11","proved",["C11_immediate_never_rests","C11_posted_order_is_recorded"],"")
c("C12","proved",["C12_self_fill_is_free","C12_behaviour","C12_fees"],"")
c("C13","proved",["C13_order_totals","C13_order_totals_quiescent","C13_lots_nonneg"],"")
c("C14","proved",["C14_taker_lots"],"")
c("C15","proved",["C15_base_nets_to_zero"],"")
c("C16","proved",["C16_event_hits_only_its_order","C16_orders_stay_recorded"],"for markets with fewer than 2^63 orders ever placed")
c("C18","proved",["C18_placing_accrues","C18_fill_is_zero_sum","C18_quote_is_conserved"],"maker fee rates with at most 24 significant bits (they are set from f32 arguments) and non-negative quote lot size")
c("C48","proved",["C48_event_parties_are_active","C48_consumable","C48_deactivation_blocks_events_refuted","C48_resizing_blocks_events_refuted"],"the unconditional claim is refuted by two concrete histories")
c("C49","proved",["C49_reduce_only"],"")
c("C51","proved",["C51_owner_can_cancel"],"for markets with fewer than 2^63 orders ever placed")
c("C17","proved",["C17_cancel_effect","C17_cancel_succeeds_iff_owner","C17_cancel_gone","C17_cancel_all_effect","C17_cancel_all_complete"],"")
c("C46","proved",["C46_impact_price","C46_matched_amount","C46_quantity_at_price","C46_matched_quantity","C46_matched_quantity_covers_amount_refuted"],"the doc comment of matched_quantity is refuted; the theorem C46_matched_quantity states what it really returns")
c("C47","proved",["C47_posted_bid_not_crossing","C47_posted_ask_not_crossing_refuted"],"holds for bids and post-only orders; refuted for quote-limited asks by a concrete execution of the code's algorithm")
c("C50","proved",["C50_opposing_side","C50_own_side","C50_book_stays_ok"],"")
c("C23","proved",["C23_totals","C23_uncovered_loss_refuted"],"for histories in which every socialized loss is smaller than all deposits; without that condition a concrete history breaks it")
c("C24","proved",["C24_deposit_value","C24_round_trip","C24_every_call"],"")
c("C25","proved",["C25_fee_on_borrowed_part","C25_settled_loan"],"")
c("C26","proved",["C26_dusted_by_withdrawal","C26_dusted_by_deposit","C26_in_use_kept","C26_dust_never_negative_refuted"],"dust can shrink by a rounding error on deposits; 'never negative' is refuted and the bound proved")
c("C27","proved",["C27_window_sum","C27_withdrawals_counted","C27_deposits_counted","C27_limit_enforced","C27_transfer_limit"],"")
c("C28","proved",["C28_remaining_deposits","C28_deposit_limit","C28_transfer_limit"],"")
c("C29","proved",["C29_indexes_grow","C29_not_overpaid","C29_crank","C29_exactly_not_overpaid_refuted"],"lenders are not overpaid up to the stated rounding term; the exact claim is refuted")
c("C30","proved",["C30_piecewise_linear","C30_monotone","C30_scaled","C30_fails_only_at_zero","C30_always_defined_refuted"],"monotone when the configured rates are (verify does not require that)")
c("C31","proved",["C31_utilization"],"")
c("C52","proved",["C52_no_new_borrow","C52_reduce_only_deposit","C52_transfer"],"")
c("C53","proved",["C53_solvent","C53_paid_from_vault"],"tokens with one bank")
c("C54","proved",["C54_same_indexes","C54_after_socialized_loss_refuted"],"holds until a loss is socialized; then refuted by a concrete history")
c("C34","proved",["C34_ledger","C34_lifetime","C34_spend","C34_no_expiry","C34_interval_change_refuted","C34_buyback","C34_buyback_no_panic"],"fixed interval; the doc comment's promise is refuted for a changed interval")
c("C38","proved",["C38_who_may_set","C38_stays_disabled","C38_disabled_rejected","C38_serum3_place_order","C38_other_gates","C38_all_gates_checked_refuted"],"four gates are never checked (refuted for those)")
c("C43","proved",["C43_precision","C43_defined","C43_clamp"],"")
c("C20","proved",["C20_settle_pnl","C20_settle_fee","C20_settle_fees"],"")
c("C21","proved",["C21_limits_signed","C21_window","C21_sum_in_window","C21_exact_sum_refuted","C21_recurring_bounded"],"each settlement can exceed the allowance by less than one native unit (exact claim refuted)")
c("C19","proved",["C19_update","C19_direction","C19_history","C19_zero_sum","C19_settle"],"")
c("C22","proved",["C22_socialize_loss","C22_quote_conserved","C22_force_close_settled","C22_force_close_refuted"],"conservation holds for every history without a forced close; a forced close of positions with unsettled funding destroys the quote owed (refuted)")
c("C55","proved",["C55_liq_negative"],"health results are inputs")
c("C56","proved",["C56_liq_base"],"for any number of lots and pnl transfer; how they are chosen: C79-C81")
c("C35","proved",["C35_rule","C35_no_harm","C35_many"],"")
c("C36","proved",["C36_ordered","C36_ordered_with_orders","C36_valuation","C36_shared_token_refuted"],"refuted when several markets with open orders share a token")
c("C37","proved",["C37_start","C37_leave","C37_blocked","C37_history"],"")
c("C42","proved",["C42_taken","C42_given","C42_defined","C42_max_settle"],"")
c("C57","proved",["C57_every_execution","C57_attained","C57_overall"],"")
c("C58","proved",["C58_skipping","C58_with_orders_refuted"],"the unconditional promise of the doc comment is refuted")
c("C59","proved",["C59_assets_minus_liabs"],"")
c("C60","proved",["C60_exclusive","C60_some_phase","C60_flags"],"")
c("C61","proved",["C61_every_outcome","C61_attained","C61_order_prices"],"")
c("C62","proved",["C62_nothing_left","C62_unhealthy_only_refuted"],"")
c("C63","proved",["C63_between","C63_monotone"],"")
c("C32","proved",["C32_slots_unique","C32_ensure_token","C32_ensure_token_fails","C32_create_serum","C32_ensure_perp","C32_ensure_perp_fails","C32_swap_ids_unique"],"")
c("C33","proved",["C33_resize_preserves","C33_refines_slot_lists","C33_header","C33_rejects"],"byte-level")
c("C64","proved",["C64_in_use_is_needed","C64_needed_stays_open","C64_closing_succeeds"],"")
c("C65","proved",["C65_posted_inside_limit"],"")
c("C39","proved",["C39_loans_closed","C39_issued","C39_paired","C39_end_after_begin","C39_no_calls_by_programs","C39_repaid","C39_listed_twice_refuted"],"the accounting holds when no account is listed twice in the end instruction; refuted when the bank is listed twice")
c("C40","proved",["C40_regions_closed","C40_paired_and_checked","C40_no_calls_by_programs"],"")
c("C41","proved",["C41_totals","C41_slots","C41_closed_is_final","C41_exhausted_is_closed"],"ids are u64; histories shorter than 2^64 calls")
c("C66","proved",["C66_trade_amounts","C66_trade_amounts_tight","C66_trigger_price"],"the f64 price formulas enter as arbitrary fixed-point values")
c("C67","proved",["C67_trigger_moves","C67_trigger_conditions","C67_reduce_only_sell_refuted"],"finding: triggers always fail when the sell bank is deposits-reduce-only")
c("C44","proved",["C44_bank_price","C44_primary_first","C44_no_price","C44_perp_price","C44_pyth_value","C44_pool_confidence_refuted"],"finding: a liquidity pool oracle is accepted with a quote feed too uncertain to be accepted itself")
c("C68","proved",["C68_fixed_bank","C68_scanned_bank","C68_two_banks","C68_perp_markets","C68_same_price","C68_layout","C68_complete","C68_open_orders"],"")
c("C45","proved",["C45_owner","C45_who_may_act","C45_owner_only","C45_frozen","C45_delegate_withdraw","C45_owner_withdraw","C45_force_withdraw","C45_delegate_flash_loan","C45_frozen_as_documented_refuted"],"finding: perp_cancel_all_orders and perp_cancel_order_by_client_order_id work on frozen accounts, and the buyback instruction checks the wrong account for its dao_account")
c("C69","proved",["C69_conditions","C69_nothing","C69_amounts","C69_balances","C69_conserved","C69_overdraw_refuted"],"The price and 'no more than it has' hold up to the stated rounding terms; the exact version is refuted by C69_overdraw_refuted. Oracle prices, the scaled weights of the changed banks and the liqor's health are inputs.")
c("C70","proved",["C70_health","C70_flag","C70_no_gain","C70_complete","C70_progress_refuted"],"'A liquidation makes progress' is refuted for fees larger than the weight gap, which Bank::verify accepts.")
c("C71","proved",["C71_conditions","C71_insurance","C71_last_resort","C71_depositors","C71_no_loss","C71_complete","C71_liqor","C71_conserved","C71_goes_through","C71_overshoot_refuted"],"'No more than asked for and owed is bought back' holds up to one insurance token's worth only (C71_overshoot_refuted). Conversion of a negative amount to u64 is taken to panic.")
c("C72","proved",["C72_conditions","C72_amounts","C72_balances","C72_no_borrow","C72_conserved","C72_health","C72_flag","C72_maint_refuted","C72_pnl_refuted"],"The code comment 'liqee's health would be guaranteed to not decrease' holds for liquidation-end health under the stated conditions; C72_maint_refuted and C72_pnl_refuted show where it does not.")
c("C73","proved",["C73_schedule","C73_history","C73_amounts","C73_payers","C73_total","C73_small_in_place","C73_threshold_refuted","C73_never_charged"],"The exemption of debts below 100$ without the condition on token places is false of the code: C73_threshold_refuted.")
c("C74","proved",["C74_place","C74_settle","C74_cancel"],"The external program's effects (open orders account, vault balances) are inputs.")
c("C75","proved",["C75_only_for_used","C75_cancelling_is_free","C75_at_most_debt","C75_no_evasion","C75_settle_clears"],"Debt made is rounded down to whole tokens per order.")
c("C76","proved",["C76_prices_tracked","C76_potential_sum","C76_two_banks_refuted"],"Prices are kept in lots; the f64 conversions enter as functions. With several banks of a token the sum is lost: C76_two_banks_refuted.")
c("C77","proved",["C77_conditions","C77_reduce_only","C77_health","C77_health_is_actual"],"The price band check is an input; oracle prices and scaled weights of the changed banks are inputs.")
c("C78","proved",["C78_conditions","C78_health_is_actual","C78_fee_missing_refuted"],"The last sentence holds when no loan fee is due; otherwise the mark can be removed too early: C78_fee_missing_refuted.")
c("C79","proved",["C79_conditions","C79_nothing","C79_limits","C79_tokens","C79_shown"],"whole instruction; the liqor's init health is an input")
c("C80","proved",["C80_not_too_much","C80_weight_refuted"],"for markets with overall weight at most 1 - pnl fee, and lots worth less than 2^46 native units; C80_weight_refuted: without the first (not validated by the program) too many lots are taken")
c("C81","proved",["C81_enough","C81_stuck","C81_progress_refuted"],"C81_stuck, C81_progress_refuted: in the last case a liquidatable account cannot be liquidated at all until the price moves")
c("C82","proved",["C82_conditions","C82_nothing","C82_amounts","C82_tokens","C82_shown"],"whole instruction; the liqor's init health is an input")
c("C83","proved",["C83_health","C83_backed","C83_enough"],"")
c("C84","proved",["C84_asset_weight","C84_liab_weight","C84_unscaled","C84_direction","C84_rebuilt"],"Doubles are 53-bit rounded dyadic numbers without overflow; start values are multiples of 2^-96.")
c("C85","proved",["C85_conditions","C85_health","C85_is_actual","C85_true_health","C85_price_refuted","C85_orders_refuted"],"whole instruction; C85_is_actual and C85_true_health need equal oracle and stable price or no deposit scaling, C85_true_health also no reserved spot funds; the refutations show both are needed")
c("C86","proved",["C86_conditions","C86_recovers","C86_limit","C86_never_lowers","C86_orders_refuted"],"whole instruction; C86_orders_refuted: with two bids sharing a borrowed token, depositing it makes the account liquidatable")
c("C87","proved",["C87_amounts","C87_tokens","C87_loser","C87_winner","C87_backed","C87_fee_refuted","C87_fills_refuted"],"whole instruction; health claims for accounts without reserved spot order funds and, for init health, without weight scaling of the settle token")
c("C88","proved",["C88_others","C88_maker_keeps","C88_maker_loses_little","C88_out","C88_cancel","C88_healthy_refuted"],"health claims for accounts without reserved spot order funds; the tempting stronger claim (a checked order cannot make its owner unhealthy) is refuted")
c("C89","proved",["C89_only_signed","C89_reached","C89_reduce_only","C89_checked","C89_true_health"],"whole instruction; the last claim for accounts without reserved spot order funds")
c("C90","proved",["C90_when","C90_reached","C90_own_orders","C90_health","C90_mark"],"whole instruction; health claim for accounts without reserved spot order funds")
c("C91","proved",["C91_security","C91_health","C91_abort_refuted"],"all arguments of token_edit; that the security admin cannot always stop a shift is shown by a witness")
c("C92","proved",["C92_perp","C92_spot","C92_health","C92_orders_refuted","C92_force","C92_force_refuted"],"settings of perp markets only the admin may set are one value; health claim without reserved tokens, a counterexample with them")
c("C93","proved",["C93_uniform","C93_fallback_refuted","C93_ranges","C93_ordered","C93_ordered_refuted","C93_ordered_kept","C93_nan_refuted"],"where the code breaks the expectation the exact exception is shown")
c("C94","proved",["C94_limit","C94_usable","C94_who","C94_harmless","C94_no_collateral"],"")
c("C95","proved",["C95_update","C95_delay","C95_reset","C95_succeeds","C95_zero_refuted"],"doubles that are not negative, bit-exact, without infinity; a lower bound that would be negative is zero")
c("C96","proved",["C96_histories","C96_delay_refuted"],"without a pending reset; that the delay price stays in the range of the prices is refuted")
c("C97","proved",["C97_amounts","C97_tokens","C97_check","C97_health"],"whole instruction; health claim for accounts without reserved spot order funds and unprocessed fills, and without weight scaling of the settle token")
c("C98","proved",["C98_value","C98_ratio","C98_left_out","C98_meaning","C98_orders_refuted","C98_negative_refuted"],"the claims that fail with reserved spot order funds or negative ratio minimum are refuted by witnesses")
c("C99","proved",["C99_amounts","C99_health","C99_harmless","C99_flag","C99_healthy_refuted"],"whole instruction; health claims for accounts without reserved spot order funds, and for initial health without weight scaling; that healthy accounts stay healthy is refuted")
c("C100","proved",["C100_withdraw","C100_history","C100_covered","C100_step"],"one settle token with one bank and any number of markets; C100_step ties perp_settle_fees (C97) to the histories")
c("C101","proved",["C101_empty","C101_no_orders"],"slots of the account (AccountSlots) and histories of a perp market (PerpSystem); signatures in C45. The taker side of a fill can be pending: C48_deactivation_blocks_events_refuted")
c("C102","proved",["C102_counts","C102_owner","C102_no_replay","C102_recreate_refuted"],"that closing and creating the account again preserves the claim is refuted")
c("C103","proved",["C103_amounts","C103_dao","C103_fair"],"whole instruction, two banks; prices are arguments. A position that ends below one native token loses it as dust")
c("C104","proved",["C104_unique","C104_lasting","C104_market","C104_band","C104_available","C104_testing_refuted"],"addresses and keys only, not the contents of banks and markets; that a spot market keeps its tokens in testing groups is refuted")
C.sort(key=lambda x:x['property'])
json.dump({"claims":C},open('/verif/MANIFEST.json','w'),indent=1)
