(** Generated by tools/gen_gates.py from src/lib.rs, src/accounts_ix/*.rs and
    src/state/group.rs:154-250.  All 103 instructions of the program. *)
From Coq Require Import List ZArith.
Import ListNotations.
Open Scope Z_scope.

(** lib.rs: [pub mod mango_v4] *)
Inductive ix :=
| Ix_admin_token_withdraw_fees
| Ix_admin_perp_withdraw_fees
| Ix_group_create
| Ix_group_edit
| Ix_group_withdraw_insurance_fund
| Ix_group_change_insurance_fund
| Ix_ix_gate_set
| Ix_group_close
| Ix_token_register
| Ix_token_register_trustless
| Ix_token_edit
| Ix_token_add_bank
| Ix_token_deregister
| Ix_token_update_index_and_rate
| Ix_token_update_index_and_rate_resilient
| Ix_account_create
| Ix_account_create_v2
| Ix_account_expand
| Ix_account_expand_v2
| Ix_account_size_migration
| Ix_account_edit
| Ix_account_toggle_freeze
| Ix_account_close
| Ix_account_buyback_fees_with_mngo
| Ix_sequence_check
| Ix_health_check
| Ix_stub_oracle_create
| Ix_stub_oracle_close
| Ix_stub_oracle_set
| Ix_stub_oracle_set_test
| Ix_token_deposit
| Ix_token_deposit_into_existing
| Ix_token_withdraw
| Ix_flash_loan_begin
| Ix_flash_loan_swap_begin
| Ix_flash_loan_end
| Ix_flash_loan_end_v2
| Ix_health_region_begin
| Ix_health_region_end
| Ix_serum3_register_market
| Ix_serum3_edit_market
| Ix_serum3_deregister_market
| Ix_serum3_create_open_orders
| Ix_serum3_close_open_orders
| Ix_serum3_place_order
| Ix_serum3_place_order_v2
| Ix_serum3_cancel_order
| Ix_serum3_cancel_order_by_client_order_id
| Ix_serum3_cancel_all_orders
| Ix_serum3_settle_funds
| Ix_serum3_settle_funds_v2
| Ix_serum3_liq_force_cancel_orders
| Ix_liq_token_with_token
| Ix_liq_token_bankruptcy
| Ix_token_liq_with_token
| Ix_token_force_close_borrows_with_token
| Ix_token_liq_bankruptcy
| Ix_token_force_withdraw
| Ix_perp_create_market
| Ix_perp_edit_market
| Ix_perp_close_market
| Ix_perp_deactivate_position
| Ix_perp_place_order
| Ix_perp_place_order_v2
| Ix_perp_place_order_pegged
| Ix_perp_place_order_pegged_v2
| Ix_perp_cancel_order
| Ix_perp_cancel_order_by_client_order_id
| Ix_perp_cancel_all_orders
| Ix_perp_cancel_all_orders_by_side
| Ix_perp_consume_events
| Ix_perp_update_funding
| Ix_perp_settle_pnl
| Ix_perp_force_close_position
| Ix_perp_settle_fees
| Ix_perp_liq_base_or_positive_pnl
| Ix_perp_liq_force_cancel_orders
| Ix_perp_liq_negative_pnl_or_bankruptcy
| Ix_perp_liq_negative_pnl_or_bankruptcy_v2
| Ix_token_conditional_swap_create
| Ix_token_conditional_swap_create_v2
| Ix_token_conditional_swap_create_premium_auction
| Ix_token_conditional_swap_create_linear_auction
| Ix_token_conditional_swap_cancel
| Ix_token_conditional_swap_trigger
| Ix_token_conditional_swap_trigger_v2
| Ix_token_conditional_swap_start
| Ix_token_charge_collateral_fees
| Ix_alt_set
| Ix_alt_extend
| Ix_compute_account_data
| Ix_openbook_v2_register_market
| Ix_openbook_v2_edit_market
| Ix_openbook_v2_deregister_market
| Ix_openbook_v2_create_open_orders
| Ix_openbook_v2_close_open_orders
| Ix_openbook_v2_place_order
| Ix_openbook_v2_place_taker_order
| Ix_openbook_v2_cancel_order
| Ix_openbook_v2_settle_funds
| Ix_openbook_v2_liq_force_cancel_orders
| Ix_openbook_v2_cancel_all_orders
| Ix_benchmark.

(** The gates an instruction checks before doing anything: the constraints in its
    accounts struct (accounts_ix/), flash_loan.rs:51 and lib.rs:1433, :1485, :1537.  The two
    serum3_place_order instructions are treated separately (serum3_place_order.rs:132-150). *)
Definition gates_checked (i : ix) : list Z :=
  match i with
  | Ix_admin_token_withdraw_fees => [65]
  | Ix_admin_perp_withdraw_fees => [66]
  | Ix_group_withdraw_insurance_fund => [51]
  | Ix_group_change_insurance_fund => [76]
  | Ix_group_close => [8]
  | Ix_token_register => [44]
  | Ix_token_register_trustless => [45]
  | Ix_token_add_bank => [39]
  | Ix_token_deregister => [41]
  | Ix_token_update_index_and_rate => [46]
  | Ix_token_update_index_and_rate_resilient => [46]
  | Ix_account_create => [1]
  | Ix_account_create_v2 => [1]
  | Ix_account_expand => [3]
  | Ix_account_expand_v2 => [3]
  | Ix_account_size_migration => [67]
  | Ix_account_edit => [2]
  | Ix_account_toggle_freeze => [4]
  | Ix_account_close => [0]
  | Ix_account_buyback_fees_with_mngo => [48]
  | Ix_sequence_check => [73]
  | Ix_health_check => [74]
  | Ix_stub_oracle_create => [37]
  | Ix_stub_oracle_close => [36]
  | Ix_stub_oracle_set => [38]
  | Ix_stub_oracle_set_test => [38]
  | Ix_token_deposit => [40]
  | Ix_token_deposit_into_existing => [40]
  | Ix_token_withdraw => [47]
  | Ix_flash_loan_begin => [7]
  | Ix_flash_loan_swap_begin => [7]
  | Ix_health_region_begin => [10]
  | Ix_serum3_register_market => [34]
  | Ix_serum3_deregister_market => [30]
  | Ix_serum3_create_open_orders => [29]
  | Ix_serum3_close_open_orders => [28]
  | Ix_serum3_cancel_order => [27]
  | Ix_serum3_cancel_order_by_client_order_id => [27]
  | Ix_serum3_cancel_all_orders => [26]
  | Ix_serum3_settle_funds => [35]
  | Ix_serum3_settle_funds_v2 => [35]
  | Ix_serum3_liq_force_cancel_orders => [32]
  | Ix_liq_token_with_token => [43]
  | Ix_liq_token_bankruptcy => [42]
  | Ix_token_liq_with_token => [43]
  | Ix_token_force_close_borrows_with_token => [49]
  | Ix_token_liq_bankruptcy => [42]
  | Ix_token_force_withdraw => [72]
  | Ix_perp_create_market => [17]
  | Ix_perp_close_market => [15]
  | Ix_perp_deactivate_position => [18]
  | Ix_perp_place_order => [22]
  | Ix_perp_place_order_v2 => [22]
  | Ix_perp_place_order_pegged => [22]
  | Ix_perp_place_order_pegged_v2 => [22]
  | Ix_perp_cancel_order => [13]
  | Ix_perp_cancel_order_by_client_order_id => [14]
  | Ix_perp_cancel_all_orders => [11]
  | Ix_perp_cancel_all_orders_by_side => [12]
  | Ix_perp_consume_events => [16]
  | Ix_perp_update_funding => [25]
  | Ix_perp_settle_pnl => [24]
  | Ix_perp_force_close_position => [50]
  | Ix_perp_settle_fees => [23]
  | Ix_perp_liq_base_or_positive_pnl => [19]
  | Ix_perp_liq_force_cancel_orders => [20]
  | Ix_perp_liq_negative_pnl_or_bankruptcy => [21]
  | Ix_perp_liq_negative_pnl_or_bankruptcy_v2 => [21]
  | Ix_token_conditional_swap_create => [52]
  | Ix_token_conditional_swap_create_v2 => [52]
  | Ix_token_conditional_swap_create_premium_auction => [69]
  | Ix_token_conditional_swap_create_linear_auction => [70]
  | Ix_token_conditional_swap_cancel => [54]
  | Ix_token_conditional_swap_trigger => [53]
  | Ix_token_conditional_swap_trigger_v2 => [53]
  | Ix_token_conditional_swap_start => [68]
  | Ix_alt_set => [6]
  | Ix_alt_extend => [5]
  | Ix_openbook_v2_register_market => [63]
  | Ix_openbook_v2_deregister_market => [58]
  | Ix_openbook_v2_create_open_orders => [57]
  | Ix_openbook_v2_close_open_orders => [56]
  | Ix_openbook_v2_place_order => [61]
  | Ix_openbook_v2_place_taker_order => [62]
  | Ix_openbook_v2_settle_funds => [64]
  | Ix_openbook_v2_liq_force_cancel_orders => [60]
  | _ => []
  end.

(** The bit of [IxGate] (group.rs:154-250) named after the instruction, if there is one *)
Definition own_gate (i : ix) : option Z :=
  match i with
  | Ix_admin_token_withdraw_fees => Some 65
  | Ix_admin_perp_withdraw_fees => Some 66
  | Ix_group_create => Some 9
  | Ix_group_withdraw_insurance_fund => Some 51
  | Ix_group_change_insurance_fund => Some 76
  | Ix_group_close => Some 8
  | Ix_token_register => Some 44
  | Ix_token_register_trustless => Some 45
  | Ix_token_add_bank => Some 39
  | Ix_token_deregister => Some 41
  | Ix_token_update_index_and_rate => Some 46
  | Ix_token_update_index_and_rate_resilient => Some 46
  | Ix_account_create => Some 1
  | Ix_account_create_v2 => Some 1
  | Ix_account_expand => Some 3
  | Ix_account_expand_v2 => Some 3
  | Ix_account_size_migration => Some 67
  | Ix_account_edit => Some 2
  | Ix_account_toggle_freeze => Some 4
  | Ix_account_close => Some 0
  | Ix_account_buyback_fees_with_mngo => Some 48
  | Ix_sequence_check => Some 73
  | Ix_health_check => Some 74
  | Ix_stub_oracle_create => Some 37
  | Ix_stub_oracle_close => Some 36
  | Ix_stub_oracle_set => Some 38
  | Ix_stub_oracle_set_test => Some 38
  | Ix_token_deposit => Some 40
  | Ix_token_deposit_into_existing => Some 40
  | Ix_token_withdraw => Some 47
  | Ix_flash_loan_begin => Some 7
  | Ix_flash_loan_swap_begin => Some 7
  | Ix_health_region_begin => Some 10
  | Ix_serum3_register_market => Some 34
  | Ix_serum3_edit_market => Some 31
  | Ix_serum3_deregister_market => Some 30
  | Ix_serum3_create_open_orders => Some 29
  | Ix_serum3_close_open_orders => Some 28
  | Ix_serum3_place_order => Some 33
  | Ix_serum3_place_order_v2 => Some 71
  | Ix_serum3_cancel_order => Some 27
  | Ix_serum3_cancel_order_by_client_order_id => Some 27
  | Ix_serum3_cancel_all_orders => Some 26
  | Ix_serum3_settle_funds => Some 35
  | Ix_serum3_settle_funds_v2 => Some 35
  | Ix_serum3_liq_force_cancel_orders => Some 32
  | Ix_liq_token_with_token => Some 43
  | Ix_liq_token_bankruptcy => Some 42
  | Ix_token_liq_with_token => Some 43
  | Ix_token_force_close_borrows_with_token => Some 49
  | Ix_token_liq_bankruptcy => Some 42
  | Ix_token_force_withdraw => Some 72
  | Ix_perp_create_market => Some 17
  | Ix_perp_close_market => Some 15
  | Ix_perp_deactivate_position => Some 18
  | Ix_perp_place_order => Some 22
  | Ix_perp_place_order_v2 => Some 22
  | Ix_perp_place_order_pegged => Some 22
  | Ix_perp_place_order_pegged_v2 => Some 22
  | Ix_perp_cancel_order => Some 13
  | Ix_perp_cancel_order_by_client_order_id => Some 14
  | Ix_perp_cancel_all_orders => Some 11
  | Ix_perp_cancel_all_orders_by_side => Some 12
  | Ix_perp_consume_events => Some 16
  | Ix_perp_update_funding => Some 25
  | Ix_perp_settle_pnl => Some 24
  | Ix_perp_force_close_position => Some 50
  | Ix_perp_settle_fees => Some 23
  | Ix_perp_liq_base_or_positive_pnl => Some 19
  | Ix_perp_liq_force_cancel_orders => Some 20
  | Ix_perp_liq_negative_pnl_or_bankruptcy => Some 21
  | Ix_perp_liq_negative_pnl_or_bankruptcy_v2 => Some 21
  | Ix_token_conditional_swap_create => Some 52
  | Ix_token_conditional_swap_create_v2 => Some 52
  | Ix_token_conditional_swap_create_premium_auction => Some 69
  | Ix_token_conditional_swap_create_linear_auction => Some 70
  | Ix_token_conditional_swap_cancel => Some 54
  | Ix_token_conditional_swap_trigger => Some 53
  | Ix_token_conditional_swap_trigger_v2 => Some 53
  | Ix_token_conditional_swap_start => Some 68
  | Ix_alt_set => Some 6
  | Ix_alt_extend => Some 5
  | Ix_openbook_v2_register_market => Some 63
  | Ix_openbook_v2_edit_market => Some 59
  | Ix_openbook_v2_deregister_market => Some 58
  | Ix_openbook_v2_create_open_orders => Some 57
  | Ix_openbook_v2_close_open_orders => Some 56
  | Ix_openbook_v2_place_order => Some 61
  | Ix_openbook_v2_place_taker_order => Some 62
  | Ix_openbook_v2_cancel_order => Some 55
  | Ix_openbook_v2_settle_funds => Some 64
  | Ix_openbook_v2_liq_force_cancel_orders => Some 60
  | Ix_openbook_v2_cancel_all_orders => Some 55
  | _ => None
  end.
