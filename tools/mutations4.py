import json
M=[]
def m(file,df,old,new,edit,claim,expect):
    M.append(dict(id='Q%03d'%(len(M)+1),file=file,**{'def':df},old=old,new=new,edit=edit,claim=claim,expect=expect))
T='CollatFee.v'; X=['C73']
m(T,'spot_values','(ti_spot t <? 0)','(0 <? ti_spot t)','assets and liabs swapped','C73_small_in_place',X)
m(T,'serum_values','fmul (si_res_base si) (pr_oracle (ti_prices b))','fmul (si_res_base si) (pr_oracle (ti_prices q))','wrong price for reserved base','(assets are not used)',X)
m(T,'perp_value','let al := add_value al (pi_quote pi <? 0) (fmul (pi_quote pi) qp) in','','perp quote left out','C73_small_in_place',X)
m(T,'MIN_LIABS','of_int 100000000','of_int 1000000000','threshold of 1000$','C73_small_in_place',X)
m(T,'add_reserved','(add_at B (si_base si) (si_res_base si))','B','reserved base not collateral','C73_amounts',X)
m(T,'health_totals','contribution (fst tb) HMaint (snd tb)','contribution (fst tb) HInit (snd tb)','init weights','C73_amounts',X)
m(T,'collateral_fees','(ce_rate e <=? 0) || (ce_aw e =? 0)','(ce_rate e <=? 0)','tokens without weight pay','C73_amounts',X)
m(T,'collateral_fees','if bal <=? 0 then Some (0, 0)','if bal =? 0 then Some (0, 0)','negative fee on borrows','C73_amounts',X)
m(T,'collateral_fees','fmul (fmul bal scaling) (ce_rate e)','fmul bal (ce_rate e)','time ignored','C73_amounts',X)
m(T,'collateral_fees','Some (fee, fmul fee (pr_oracle (ti_prices t)))','Some (fee, fee)','price ignored','C73_total',X)
m(T,'charge_borrows','if 0 <=? h then Some (e, 0)','if h <=? 0 then Some (e, 0)','collateral pays','C73_payers',X)
m(T,'charge_borrows','let* sh := cdiv h liabs in','let* sh := cdiv liabs liabs in','every borrow pays the whole','C73_total',X)
m(T,'charge_borrows','cdiv (fmul (Z.abs sh) usd) (pr_oracle (ti_prices t))','cdiv (fmul (Z.abs sh) usd) fone','price ignored','C73_total',X)
m(T,'charge_borrows','let b := set_totals b (b_dep b) (b_bor b) (b_dust b) (b_fees b + fee) in','','fee vanishes','C73_payers',X)
m(T,'charge_borrows','withdraw_without_fee (ce_bank e) (ce_pos e) fee now','withdraw_with_fee (ce_bank e) (ce_pos e) fee now','loan fee on top','C73_payers',X)
m(T,'charge_collateral_fees','if interval =? 0 then Some (no_charge 0 E)','if interval =? 0 then Some (no_charge last E)','time stamp kept while off','C73_schedule',X)
m(T,'charge_collateral_fees','else if last =? 0 then Some (no_charge now E)','','first call charges since 1970','C73_schedule',X)
m(T,'charge_collateral_fees','if now <? last + interval then','if now <? last then','interval ignored','C73_schedule',X)
m(T,'charge_collateral_fees','if now <? last + interval then Some (no_charge last E)','if now <? last + interval then Some (no_charge now E)','early calls reset the clock (evasion)','C73_schedule',X)
m(T,'charge_collateral_fees','Z.min (now - last) (2 * interval)','now - last','no cap of two intervals','C73_schedule',X)
m(T,'charge_collateral_fees','if liabs <? MIN_LIABS then Some (no_charge now E)','if liabs <? MIN_LIABS then Some (no_charge last E)','exempt time is charged later','C73_schedule',X)
m(T,'charge_collateral_fees','if liabs <? MIN_LIABS then','if liabs <? 0 then','threshold dropped','C73_small_in_place',X)
m(T,'charge_collateral_fees','Z.min (Z.max ratio 0) fone','Z.max ratio 0','usage not capped','C73_amounts',X)
m(T,'charge_collateral_fees','cdiv tot_l tot_a','cdiv tot_a tot_l','usage inverted','C73_amounts',X)
m(T,'charge_collateral_fees','Some (mkCO now E\' secs coll usd paid)','Some (mkCO last E\' secs coll usd paid)','time stamp not updated: charged twice','C73_history',X)
m(T,'charge_collateral_fees','let B := add_reserved B (hc_serum hc) in','','open orders not collateral','C73_amounts',X)
T='Serum.v'; X=['C74','C75','C76','C77','C78']
m(T,'vault_difference','Z.abs (Z.min (Z.max change (native b\' p\')) 0)','Z.abs (Z.min change 0)','own deposits count as loan','C75_at_most_debt',X)
m(T,'vault_difference','Z.abs (Z.min (Z.max change (native b\' p\')) 0)','Z.abs (Z.min (native b\' p\') 0)','old debt counts as loan','C75_at_most_debt',X)
m(T,'vault_difference','Z.max 0 (bwf - to_int needed)','0','any settlement clears the record','C75_no_evasion',X)
m(T,'vault_difference','let bwf := if 0 <? needed then Z.max 0 (bwf - to_int needed) else bwf in','','settling does not clear the record','C75_only_for_used',X)
m(T,'vault_difference','else withdraw_without_fee b p (- needed) now','else withdraw_with_fee b p (- needed) now','fee at placing too','C74_place',X)
m(T,'charge_side','Z.max 0 (bwf - total)','bwf','tokens still in the account charged','C75_only_for_used',X)
m(T,'charge_side','Some (b\', p\', total, loan)','Some (b\', p\', bwf, loan)','record not reduced: charged again','C75_only_for_used',X)
m(T,'charge_side','Some (b\', p\', total, loan)','Some (b\', p\', 0, loan)','whole record cleared: rest escapes','C75_no_evasion',X)
m(T,'charge_fees','(so_qbwf so) (oo_quote_total oo)','(so_qbwf so) (oo_base_total oo)','wrong total','C75_only_for_used',X)
m(T,'charge_fees','charge_side (ss_qb s) (ss_qp s) (so_qbwf so)','charge_side (ss_qb s) (ss_qp s) (so_bbwf so)','wrong record','C75',X)
m(T,'update_potential','Some (set_serum b (b_serum b + (new - old)))','Some (set_serum b (b_serum b + new))','old potential counted again','C76_potential_sum',X)
m(T,'update_potential','b_serum b - (old - new)','b_serum b - old','potential dropped','C76_potential_sum',X)
m(T,'potential_base','oo_base_total oo + pf_to_base','oo_base_free oo + pf_to_base','resting asks not counted','(what potential means is not claimed)',X)
m(T,'update_potentials','(so_pot_base so) nb in\n  let* qb := update_potential (ss_qb s) (so_pot_quote so) nq','(so_pot_base so) nb in\n  let* qb := update_potential (ss_qb s) (so_pot_base so) nq','wrong old value','C76_potential_sum',X)
m(T,'update_potentials_payer','(set_pots so (so_pot_base so) nq)','so','record not updated','C76_potential_sum',X)
m(T,'settle_changes','let qv\' := qv\' - received in','','rebates both kept and paid','C74_settle',X)
m(T,'settle_changes','(b_fees (ss_qb s) + of_int received)','(b_fees (ss_qb s))','rebates vanish','C74_settle',X)
m(T,'settle_changes','let* _ := guard (bv <=? bv\') in','','vault may shrink','C74_settle',X)
m(T,'settle_changes','vault_difference qb (ss_qp s) (so_qbwf so) qv\' qv now','vault_difference qb (ss_qp s) (so_qbwf so) qv\' bv now','wrong vault','C74_settle',X)
m(T,'settle_changes','(so_bid_hi so) (so_bid_lo so) (so_ask_lo so) (so_ask_hi so) (so_pot_base so) (so_pot_quote so) in\n  let* s := update_potentials','0 0 0 0 (so_pot_base so) (so_pot_quote so) in\n  let* s := update_potentials','settling forgets the order prices','C76_prices_tracked',X)
m(T,'recompute_serum','of_int (oo_quote_free oo\') - of_int (oo_quote_free oo)','of_int (oo_quote_free oo\')','free quote counted twice','C77_health_is_actual',X)
m(T,'recompute_serum','(pf_ask pf (so_ask_lo so))','(pf_ask pf (so_ask_hi so))','highest ask for the health','C77_health_is_actual',X)
m(T,'force_cancel','if negb (negb operational || (match l with Liquidatable => true | _ => false end) || force) then','if negb (negb operational || (match l with NotLiquidatable => false | _ => true end) || force) then','recovered accounts are cancelled','C78_conditions',X)
m(T,'force_cancel','|| force) then','|| negb force) then','force flag inverted','C78_conditions',X)
m(T,'force_cancel','let* hc := adjust_token_balance hc (se_quote e) qc wq in','','quote not updated','C78_health_is_actual',X)
m(T,'force_cancel','Some (s, recover flag liq_end, Some (hc, received, loans))','Some (s, flag, Some (hc, received, loans))','mark kept','C78_health_is_actual',X)
m(T,'force_cancel','settle_changes (se_pf e) s true oo oo\'','settle_changes (se_pf e) s false oo oo\'','rebates to the account','C74_cancel',X)
m(T,'track','if has_bids before then so_bid_hi so else 0','so_bid_hi so','(stale bound kept: still covers)','none: weaker bound',X)
m(T,'track','if has_bids before then so_bid_lo so else 0','0','bound reset','C76_prices_tracked',X)
m(T,'track','(max0 hi lots, min0 lo lots, al, ah)','(min0 hi lots, min0 lo lots, al, ah)','highest bid not raised','C76_prices_tracked',X)
m(T,'track','(hi, lo, min0 al lots, max0 ah lots)','(max0 hi lots, lo, min0 al lots, max0 ah lots)','ask tracked as bid (still covers)','none',X)
m(T,'track','if same_bits (free_bits before) (free_bits after) then (hi, lo, al, ah)\n    else','','(order that does not rest tracked)','none: weaker bound',X)
m(T,'track','let al := if has_asks before then so_ask_lo so else 0 in','let al := if has_bids before then so_ask_lo so else 0 in','wrong side resets','C76_prices_tracked',X)
m(T,'min0','if a =? 0 then b else Z.min a b','Z.min a b','zero is a price','C76_prices_tracked',X)
m(T,'place_order','let* _ := guard (0 <? pl_lots pl) in','','price zero','C77_conditions',X)
m(T,'place_order','let* _ := guard (negb (pl_market_reduce pl)) in','','reduce-only market','C77_conditions',X)
m(T,'place_order','deposits_reduce_only (receiver_bank bid s)','deposits_reduce_only (payer_bank bid s)','reduce-only of the wrong token','C77_reduce_only',X)
m(T,'place_order','let* _ := guard (pl_vault\' pl <=? pl_vault pl) in','','vault may grow','C74_place',X)
m(T,'place_order','let* _ := guard (check_deposit_and_oo_limit (receiver_bank bid s)) in','','deposit limit ignored','C77_conditions',X)
m(T,'place_order','guard (negb (borrows_reduce_only b) &&','guard (','borrow in no-borrow bank','C77_conditions',X)
m(T,'place_order','&& check_net_borrows b (pl_oracle pl)','','net borrow limit ignored','C77_conditions',X)
m(T,'place_order','if before <? of_int (pl_vault pl - pl_vault\' pl) then','if native b p <? 0 then','(borrow limits also for old debts)','C77: none broken',X)
m(T,'place_order','if before <? of_int (pl_vault pl - pl_vault\' pl) then','if before <? 0 then','new borrows unchecked','C77_conditions',X)
m(T,'place_order','|| pl_band pl) in','|| true) in','price band dropped','C77_conditions',X)
m(T,'place_order','let* hc := adjust_token_balance hc payer change (pl_wp pl) in','','health without the payment','C77_health_is_actual',X)
m(T,'place_order','guard (ti_spot t + pot <? fone)','guard (ti_spot t <? fone)','orders ignored in reduce-only','C77_reduce_only',X)
m(T,'place_order','guard (post_check pre post) in','guard (post_check post pre) in','health rule swapped','C77_health',X)
m(T,'place_order','let* flag := pre_check flag h h_end in Some (flag, h) in','Some (flag, h) in','being liquidated ignored','C77_health',X)
json.dump(M,open('/tmp/mutations4.json','w'))
print(len(M))
