(** Generated by tools/gen_auth.py from src/lib.rs, src/accounts_ix/*.rs and
    src/instructions/*.rs.  For each of the 103 instructions: the mango accounts it
    takes, whether it requires them to be operational ([is_operational] constraint),
    and whose signature it requires: the owner's ([has_one = owner]), the owner's or a
    delegate's ([is_owner_or_delegate], in the accounts struct or at the beginning of the
    instruction), the group admin's, or nobody's.  perp_consume_events takes mango
    accounts as remaining accounts (perp_consume_events.rs:56). *)
From Coq Require Import List ZArith.
From Verif Require Import GateTable.
Import ListNotations.

Inductive role := RAccount | RDao | RLiqor | RLiqee | RAccountA | RAccountB | RSettler | RRemaining.
Inductive who := WNew | WOwner | WOwnerOrDelegate | WAdmin | WAnyone.
Record touch := mkTouch { t_role : role; t_oper : bool; t_who : who }.

Definition touched (i : ix) : list touch :=
  match i with
  | Ix_account_create => [mkTouch RAccount false WNew]   (* accounts_ix/account_create.rs:7 *)
  | Ix_account_create_v2 => [mkTouch RAccount false WNew]   (* accounts_ix/account_create.rs:31 *)
  | Ix_account_expand => [mkTouch RAccount true WOwner]   (* accounts_ix/account_expand.rs:6 *)
  | Ix_account_expand_v2 => [mkTouch RAccount true WOwner]   (* accounts_ix/account_expand.rs:6 *)
  | Ix_account_size_migration => [mkTouch RAccount false WAnyone]   (* accounts_ix/account_size_migration.rs:6 *)
  | Ix_account_edit => [mkTouch RAccount true WOwner]   (* accounts_ix/account_edit.rs:6 *)
  | Ix_account_toggle_freeze => [mkTouch RAccount false WAdmin]   (* accounts_ix/account_toggle_freeze.rs:6 *)
  | Ix_account_close => [mkTouch RAccount true WOwner]   (* accounts_ix/account_close.rs:8 *)
  | Ix_account_buyback_fees_with_mngo => [mkTouch RAccount true WOwnerOrDelegate; mkTouch RDao false WAnyone]   (* accounts_ix/account_buyback_fees_with_mngo.rs:6 *)
  | Ix_sequence_check => [mkTouch RAccount true WOwner]   (* accounts_ix/sequence_check.rs:6 *)
  | Ix_health_check => [mkTouch RAccount true WAnyone]   (* accounts_ix/health_check.rs:18 *)
  | Ix_token_deposit => [mkTouch RAccount true WOwnerOrDelegate]   (* accounts_ix/token_deposit.rs:47 *)
  | Ix_token_deposit_into_existing => [mkTouch RAccount true WAnyone]   (* accounts_ix/token_deposit.rs:10 *)
  | Ix_token_withdraw => [mkTouch RAccount true WOwnerOrDelegate]   (* accounts_ix/token_withdraw.rs:10 *)
  | Ix_flash_loan_begin => [mkTouch RAccount true WOwnerOrDelegate]   (* accounts_ix/flash_loan.rs:30 *)
  | Ix_flash_loan_swap_begin => [mkTouch RAccount true WOwnerOrDelegate]   (* accounts_ix/flash_loan.rs:47 *)
  | Ix_flash_loan_end => [mkTouch RAccount true WAnyone]   (* accounts_ix/flash_loan.rs:80; always fails *)
  | Ix_flash_loan_end_v2 => [mkTouch RAccount true WOwnerOrDelegate]   (* accounts_ix/flash_loan.rs:80 *)
  | Ix_health_region_begin => [mkTouch RAccount true WAnyone]   (* accounts_ix/health_region.rs:12 *)
  | Ix_health_region_end => [mkTouch RAccount true WAnyone]   (* accounts_ix/health_region.rs:35 *)
  | Ix_serum3_create_open_orders => [mkTouch RAccount true WOwnerOrDelegate]   (* accounts_ix/serum3_create_open_orders.rs:7 *)
  | Ix_serum3_close_open_orders => [mkTouch RAccount true WOwnerOrDelegate]   (* accounts_ix/serum3_close_open_orders.rs:7 *)
  | Ix_serum3_place_order => [mkTouch RAccount true WOwnerOrDelegate]   (* accounts_ix/serum3_place_order.rs:36 *)
  | Ix_serum3_place_order_v2 => [mkTouch RAccount true WOwnerOrDelegate]   (* accounts_ix/serum3_place_order.rs:36 *)
  | Ix_serum3_cancel_order => [mkTouch RAccount true WOwnerOrDelegate]   (* accounts_ix/serum3_cancel_order.rs:7 *)
  | Ix_serum3_cancel_order_by_client_order_id => [mkTouch RAccount true WOwnerOrDelegate]   (* accounts_ix/serum3_cancel_order.rs:7 *)
  | Ix_serum3_cancel_all_orders => [mkTouch RAccount true WOwnerOrDelegate]   (* accounts_ix/serum3_cancel_all_orders.rs:7 *)
  | Ix_serum3_settle_funds => [mkTouch RAccount true WAnyone]   (* accounts_ix/serum3_settle_funds.rs:8; always fails *)
  | Ix_serum3_settle_funds_v2 => [mkTouch RAccount true WOwnerOrDelegate]   (* accounts_ix/serum3_settle_funds.rs:73 *)
  | Ix_serum3_liq_force_cancel_orders => [mkTouch RAccount false WAnyone]   (* accounts_ix/serum3_liq_force_cancel_orders.rs:8 *)
  | Ix_liq_token_with_token => [mkTouch RLiqor true WOwnerOrDelegate; mkTouch RLiqee true WAnyone]   (* accounts_ix/token_liq_with_token.rs:6 *)
  | Ix_liq_token_bankruptcy => [mkTouch RLiqor true WOwnerOrDelegate; mkTouch RLiqee true WAnyone]   (* accounts_ix/token_liq_bankruptcy.rs:13 *)
  | Ix_token_liq_with_token => [mkTouch RLiqor true WOwnerOrDelegate; mkTouch RLiqee true WAnyone]   (* accounts_ix/token_liq_with_token.rs:6 *)
  | Ix_token_force_close_borrows_with_token => [mkTouch RLiqor true WOwnerOrDelegate; mkTouch RLiqee true WAnyone]   (* accounts_ix/token_force_close_borrows_with_token.rs:6 *)
  | Ix_token_liq_bankruptcy => [mkTouch RLiqor true WOwnerOrDelegate; mkTouch RLiqee true WAnyone]   (* accounts_ix/token_liq_bankruptcy.rs:13 *)
  | Ix_token_force_withdraw => [mkTouch RAccount true WAnyone]   (* accounts_ix/token_force_withdraw.rs:10 *)
  | Ix_perp_deactivate_position => [mkTouch RAccount true WOwnerOrDelegate]   (* accounts_ix/perp_deactivate_position.rs:7 *)
  | Ix_perp_place_order => [mkTouch RAccount true WOwnerOrDelegate]   (* accounts_ix/perp_place_order.rs:6 *)
  | Ix_perp_place_order_v2 => [mkTouch RAccount true WOwnerOrDelegate]   (* accounts_ix/perp_place_order.rs:6 *)
  | Ix_perp_place_order_pegged => [mkTouch RAccount true WOwnerOrDelegate]   (* accounts_ix/perp_place_order.rs:6 *)
  | Ix_perp_place_order_pegged_v2 => [mkTouch RAccount true WOwnerOrDelegate]   (* accounts_ix/perp_place_order.rs:6 *)
  | Ix_perp_cancel_order => [mkTouch RAccount true WOwnerOrDelegate]   (* accounts_ix/perp_cancel_order.rs:6 *)
  | Ix_perp_cancel_order_by_client_order_id => [mkTouch RAccount false WOwnerOrDelegate]   (* accounts_ix/perp_cancel_order_by_client_order_id.rs:6 *)
  | Ix_perp_cancel_all_orders => [mkTouch RAccount false WOwnerOrDelegate]   (* accounts_ix/perp_cancel_all_orders.rs:6 *)
  | Ix_perp_cancel_all_orders_by_side => [mkTouch RAccount true WOwnerOrDelegate]   (* accounts_ix/perp_cancel_all_orders_by_side.rs:6 *)
  | Ix_perp_consume_events => [mkTouch RRemaining false WAnyone]   (* accounts_ix/perp_consume_events.rs:6 *)
  | Ix_perp_settle_pnl => [mkTouch RSettler true WOwnerOrDelegate; mkTouch RAccountA true WAnyone; mkTouch RAccountB true WAnyone]   (* accounts_ix/perp_settle_pnl.rs:6 *)
  | Ix_perp_force_close_position => [mkTouch RAccountA true WAnyone; mkTouch RAccountB true WAnyone]   (* accounts_ix/perp_force_close_position.rs:6 *)
  | Ix_perp_settle_fees => [mkTouch RAccount true WAnyone]   (* accounts_ix/perp_settle_fees.rs:6 *)
  | Ix_perp_liq_base_or_positive_pnl => [mkTouch RLiqor true WOwnerOrDelegate; mkTouch RLiqee true WAnyone]   (* accounts_ix/perp_liq_base_or_positive_pnl.rs:7 *)
  | Ix_perp_liq_force_cancel_orders => [mkTouch RAccount false WAnyone]   (* accounts_ix/perp_liq_force_cancel_orders.rs:6 *)
  | Ix_perp_liq_negative_pnl_or_bankruptcy => [mkTouch RLiqor true WAnyone; mkTouch RLiqee true WAnyone]   (* accounts_ix/perp_liq_negative_pnl_or_bankruptcy.rs:7; always fails *)
  | Ix_perp_liq_negative_pnl_or_bankruptcy_v2 => [mkTouch RLiqor true WOwnerOrDelegate; mkTouch RLiqee true WAnyone]   (* accounts_ix/perp_liq_negative_pnl_or_bankruptcy.rs:63 *)
  | Ix_token_conditional_swap_create => [mkTouch RAccount true WOwnerOrDelegate]   (* accounts_ix/token_conditional_swap_create.rs:6 *)
  | Ix_token_conditional_swap_create_v2 => [mkTouch RAccount true WOwnerOrDelegate]   (* accounts_ix/token_conditional_swap_create.rs:6 *)
  | Ix_token_conditional_swap_create_premium_auction => [mkTouch RAccount true WOwnerOrDelegate]   (* accounts_ix/token_conditional_swap_create.rs:6 *)
  | Ix_token_conditional_swap_create_linear_auction => [mkTouch RAccount true WOwnerOrDelegate]   (* accounts_ix/token_conditional_swap_create.rs:6 *)
  | Ix_token_conditional_swap_cancel => [mkTouch RAccount true WOwnerOrDelegate]   (* accounts_ix/token_conditional_swap_cancel.rs:6 *)
  | Ix_token_conditional_swap_trigger => [mkTouch RLiqee true WAnyone; mkTouch RLiqor true WOwnerOrDelegate]   (* accounts_ix/token_conditional_swap_trigger.rs:6 *)
  | Ix_token_conditional_swap_trigger_v2 => [mkTouch RLiqee true WAnyone; mkTouch RLiqor true WOwnerOrDelegate]   (* accounts_ix/token_conditional_swap_trigger.rs:6 *)
  | Ix_token_conditional_swap_start => [mkTouch RLiqee true WAnyone; mkTouch RLiqor true WOwnerOrDelegate]   (* accounts_ix/token_conditional_swap_start.rs:6 *)
  | Ix_token_charge_collateral_fees => [mkTouch RAccount true WAnyone]   (* accounts_ix/token_charge_collateral_fees.rs:7 *)
  | Ix_compute_account_data => [mkTouch RAccount false WAnyone]   (* accounts_ix/compute_account_data.rs:5 *)
  | Ix_openbook_v2_create_open_orders => [mkTouch RAccount true WAnyone]   (* accounts_ix/openbook_v2_create_open_orders.rs:8; does nothing *)
  | Ix_openbook_v2_close_open_orders => [mkTouch RAccount true WAnyone]   (* accounts_ix/openbook_v2_close_open_orders.rs:8; does nothing *)
  | Ix_openbook_v2_place_order => [mkTouch RAccount true WAnyone]   (* accounts_ix/openbook_v2_place_order.rs:8; does nothing *)
  | Ix_openbook_v2_place_taker_order => [mkTouch RAccount true WAnyone]   (* accounts_ix/openbook_v2_place_take_order.rs:8; does nothing *)
  | Ix_openbook_v2_cancel_order => [mkTouch RAccount true WAnyone]   (* accounts_ix/openbook_v2_cancel_order.rs:8; does nothing *)
  | Ix_openbook_v2_settle_funds => [mkTouch RAccount true WAnyone]   (* accounts_ix/openbook_v2_settle_funds.rs:9; does nothing *)
  | Ix_openbook_v2_liq_force_cancel_orders => [mkTouch RAccount false WAnyone]   (* accounts_ix/openbook_v2_liq_force_cancel_orders.rs:9; does nothing *)
  | Ix_openbook_v2_cancel_all_orders => [mkTouch RAccount true WAnyone]   (* accounts_ix/openbook_v2_cancel_order.rs:8; does nothing *)
  | _ => []
  end.
(** instructions whose body is empty in lib.rs *)
Definition does_nothing (i : ix) : bool :=
  match i with
  | Ix_openbook_v2_register_market | Ix_openbook_v2_edit_market | Ix_openbook_v2_deregister_market | Ix_openbook_v2_create_open_orders | Ix_openbook_v2_close_open_orders | Ix_openbook_v2_place_order | Ix_openbook_v2_place_taker_order | Ix_openbook_v2_cancel_order | Ix_openbook_v2_settle_funds | Ix_openbook_v2_liq_force_cancel_orders | Ix_openbook_v2_cancel_all_orders => true
  | _ => false
  end.
(** instructions that only return an error in lib.rs *)
Definition always_fails (i : ix) : bool :=
  match i with
  | Ix_flash_loan_end | Ix_serum3_settle_funds | Ix_perp_liq_negative_pnl_or_bankruptcy => true
  | _ => false
  end.
