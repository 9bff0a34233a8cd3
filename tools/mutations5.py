import json
M=[]
def m(file,df,old,new,edit,claim,expect):
    M.append(dict(id='R%03d'%(len(M)+1),file=file,**{'def':df},old=old,new=new,edit=edit,claim=claim,expect=expect))
T='PerpLiqBase.v'; X=['C79','C80','C81']
m(T,'MINUS_HALF','Definition MINUS_HALF : fx := - 2 ^ 47.','Definition MINUS_HALF : fx := - 2 ^ 57.','step 5 starts only at -512','C81_enough',X)
m(T,'reduce_base','Z.min (Z.min n (Z.abs base - tk_red x)) (Z.abs max_base - tk_red x)','Z.min (Z.min n (Z.abs base)) (Z.abs max_base - tk_red x)','reduced lots forgotten against the position','C79_limits',X)
m(T,'reduce_base','Z.min (Z.min n (Z.abs base - tk_red x)) (Z.abs max_base - tk_red x)','Z.min (Z.min n (Z.abs base - tk_red x)) (Z.abs max_base)','reduced lots forgotten against the maximum','C79_limits',X)
m(T,'reduce_base','Z.min (Z.min n (Z.abs base - tk_red x)) (Z.abs max_base - tk_red x)','Z.min n (Z.abs base - tk_red x)','maximum ignored','C79_limits',X)
m(T,'reduce_base','chk_i64 (ceil_int q)','chk_i64 (q / fone)','lots rounded down','C81_enough',X)
m(T,'reduce_base','chk_i64 (ceil_int q)','chk_i64 (ceil_int q + 1)','one lot too many','C80_not_too_much',X)
m(T,'reduce_base','let* q := cdiv (Z.min need limit) expected in','let* q := cdiv limit expected in','need ignored','C80_not_too_much',X)
m(T,'reduce_base','let* q := cdiv (Z.min need limit) expected in','let* q := cdiv need expected in','limit ignored','C80_not_too_much/C81',X)
m(T,'reduce_base','let s\' := tk_s x + fmul actual (of_int lots) in\n  Some (mkTk (tk_red x + lots) (tk_pnl x) (tk_u x + fmul per_lot (of_int lots))\n    (tk_h x - contribution t HLiqEnd (tk_s x) + contribution t HLiqEnd s\') s\').','let s\' := tk_s x + fmul expected (of_int lots) in\n  Some (mkTk (tk_red x + lots) (tk_pnl x) (tk_u x + fmul per_lot (of_int lots))\n    (tk_h x - contribution t HLiqEnd (tk_s x) + contribution t HLiqEnd s\') s\').','expected instead of actual gain recorded','C81_enough',X)
m(T,'reduce_base','(tk_u x + fmul per_lot (of_int lots))','(tk_u x)','projected pnl not updated','C81_enough',X)
m(T,'reduce_base','Some (mkTk (tk_red x + lots) (tk_pnl x)','Some (mkTk lots (tk_pnl x)','earlier lots forgotten','C79_limits',X)
m(T,'reduce_base','spot_amount_given (tk_h x) (tk_s x) (asset_wp t HLiqEnd) (liab_wp t HLiqEnd) in\n  let* _ := guard','spot_amount_given (tk_h x) (tk_s x) (liab_wp t HLiqEnd) (liab_wp t HLiqEnd) in\n  let* _ := guard','asset weight of the settle token ignored','C81_enough',X)
m(T,'settle_step','Z.min (Z.min q (max_pnl - tk_pnl x)) (tk_u x)','Z.min q (max_pnl - tk_pnl x)','more pnl than there is','C80/C79',X)
m(T,'settle_step','Z.min (Z.min q (max_pnl - tk_pnl x)) (tk_u x)','Z.min (Z.min q max_pnl) (tk_u x)','settled pnl forgotten against the maximum','C79_limits',X)
m(T,'settle_step','Z.min (Z.min q (max_pnl - tk_pnl x)) (tk_u x)','Z.min q (tk_u x)','maximum ignored','C79_limits',X)
m(T,'settle_step','let* q := cdiv need per_settle in','let q := need in','need not divided by the gain','C81_enough',X)
m(T,'settle_step','(tk_u x - settle)','(tk_u x)','pnl taken twice','C81/C80',X)
m(T,'settle_step','Z.max (Z.min (Z.min q (max_pnl - tk_pnl x)) (tk_u x)) 0','Z.min (Z.min q (max_pnl - tk_pnl x)) (tk_u x)','negative transfers not excluded','C79_limits',X)
m(T,'settle_step','let s\' := tk_s x + fmul settle per_settle in','let s\' := tk_s x + settle in','fee ignored in the projection','C81_enough',X)
m(T,'step1','(- tk_u x) per_lot per_lot per_lot x','FX_MAX per_lot per_lot per_lot x','step 1 runs past zero pnl','C81_enough',X)
m(T,'step1','if tk_u x <? 0 then','if false then','step 1 skipped','C81_enough',X)
m(T,'step24','(overall <? gain)','(gain <? overall)','pnl taken only when useless','C81_enough',X)
m(T,'step24','(gain - overall)','gain','weight of the pnl forgotten','C81_enough',X)
m(T,'step24','if (0 <=? tk_u x) && (overall <? gain)','if (tk_u x <=? 0) && (overall <? gain)','pnl only from negative positions','C81_enough',X)
m(T,'step3','(max_pnl - tk_pnl x) (fmul per_lot gain) (fmul per_lot overall)','(max_pnl - tk_pnl x) (fmul per_lot overall) (fmul per_lot overall)','lots taken for their weighted gain','C80 (equals step 5)',X)
m(T,'step3','(max_pnl - tk_pnl x) (fmul per_lot gain) (fmul per_lot overall)','(max_pnl - tk_pnl x) (fmul per_lot gain) (fmul per_lot gain)','gain as if pnl were settled','C81_enough',X)
m(T,'step3','(tk_pnl x <? max_pnl)','(max_pnl <? tk_pnl x)','step 3 never','C81_enough',X)
m(T,'step5','(0 <? overall)','(overall <? 0)','step 5 never','C81_enough',X)
m(T,'step5','if (tk_h x <? MINUS_HALF) &&','if (MINUS_HALF <? tk_h x) &&','step 5 for healthy ones','C81_enough',X)
m(T,'step5','FX_MAX (fmul per_lot overall) (fmul per_lot overall)','FX_MAX per_lot (fmul per_lot overall)','too few lots in step 5','C81_enough',X)
m(T,'step5','FX_MAX (fmul per_lot overall) (fmul per_lot overall)','FX_MAX (fmul (fmul per_lot overall) overall) (fmul per_lot overall)','too many lots in step 5','C80_not_too_much',X)
m(T,'five_steps','  let* x := step24 t max_pnl gain overall x in\n  step5','  step5','step 4 left out','C81_enough',X)
m(T,'five_steps','  let* x := step24 t max_pnl gain overall x in\n  let* x := step3','  let* x := step3','step 2 left out','none (step 4 and 5 make up for it)',X)
m(T,'five_steps','  let* x := step3 t base max_base max_pnl per_lot gain overall x in\n','','step 3 left out','C81_enough',X)
m(T,'five_steps','  step5 t base max_base per_lot overall x.','  Some x.','step 5 left out','C81_enough',X)
m(T,'uhupnl_per_lot','let* _ := guard (if 0 <? base then 0 <=? max_base else max_base <=? 0) in','','direction not checked','C79_limits',X)
m(T,'uhupnl_per_lot','- bp_init_aw par + (fone - bp_fee par - bp_plat par)','- bp_init_aw par + (fone - bp_fee par)','platform fee ignored','C80/C81',X)
m(T,'uhupnl_per_lot','bp_init_lw par - (fone + bp_fee par + bp_plat par)','bp_init_lw par - (fone - bp_fee par - bp_plat par)','fees with the wrong sign','C80/C81',X)
m(T,'uhupnl_per_lot','bp_init_lw par - (fone + bp_fee par + bp_plat par)','bp_init_aw par - (fone + bp_fee par + bp_plat par)','asset weight for shorts','C80/C81',X)
m(T,'uhupnl_per_lot','let lot := fmul (of_int (mk_bls mk)) price in','let lot := price in','lot size ignored','C80/C81',X)
m(T,'recompute_perp','(bp_maint_ov par) (bp_init_ov par) (pi_prices pi)','(bp_init_ov par) (bp_maint_ov par) (pi_prices pi)','weights swapped','C79_shown',X)
m(T,'recompute_perp','(update_nth (hc_perps hc) i (fun pi =>','(update_nth (hc_perps hc) 0 (fun pi =>','first perp market updated','C79_shown',X)
m(T,'liq_action','(mkTk 0 0 (uhupnl pi HLiqEnd) health (nth i B 0)) in','(mkTk 0 0 (uhupnl pi HInit) health (nth i B 0)) in','init prices','C80/C81',X)
m(T,'liq_action','(mkTk 0 0 (uhupnl pi HLiqEnd) health (nth i B 0)) in','(mkTk 0 0 (uhupnl pi HLiqEnd) health (ti_spot t)) in','perp positions ignored in the balance','C80/C81',X)
m(T,'liq_action','price (tk_red x) (tk_pnl x)\n              (bp_fee par) (bp_plat par)','price (tk_red x) (tk_pnl x)\n              (bp_plat par) (bp_fee par)','fees swapped','C79_limits',X)
m(T,'liq_action','let* (bk, et, _) := deposit (bs_bank s) (bs_ee_tok s) (lb_token r) (be_now e) in','let* (bk, et, _) := deposit (bs_bank s) (bs_ee_tok s) (tk_pnl x) (be_now e) in','no fee on taken over pnl','C79_tokens',X)
m(T,'liq_action','withdraw_without_fee bk (bs_or_tok s) (lb_token r) (be_now e)','withdraw_without_fee bk (bs_or_tok s) (tk_pnl x) (be_now e)','liqor pays the whole pnl','C79_tokens',X)
m(T,'liq_action','adjust_token_balance (bs_cache s) (be_settle e) (lb_token r) (be_sw e)','adjust_token_balance (bs_cache s) (be_settle e) (tk_pnl x) (be_sw e)','health without the fee','C79_shown/C80/C81',X)
m(T,'liq_action','let* hc := recompute_perp hc (lb_liqee r) (lb_market r) (be_settle e) par in','','health cache keeps the old position','C79_shown',X)
m(T,'liq_action','let gain := fone - bp_pnl_fee par in','let gain := fone in','pnl fee ignored in the steps','C81_enough',X)
m(T,'perp_liq_base','let max_base := Z.max max_base (i64_min + 1) in','','abs of i64::MIN','none in Z (overflow not modelled there)',X)
m(T,'perp_liq_base','let* _ := guard signed in','','no signature','C79_conditions',X)
m(T,'perp_liq_base','let* _ := guard (negb liqor_flag) in','','liqor may be liquidated','C79_conditions',X)
m(T,'perp_liq_base','let* _ := guard (after_phase1 (bs_cache s)) in','','open orders allowed','C79_conditions',X)
m(T,'perp_liq_base','let s\' := with_flag s\' (recover (bs_flag s\') h\') in','','mark never removed','C79_conditions',X)
m(T,'perp_liq_base','let* _ := guard (h <=? h\') in','','health may get worse','C79_conditions',X)
m(T,'perp_liq_base','guard (region || (0 <=? liqor_init s\'))','guard region','',"",X)
M[-1].update(old="guard (region || (0 <=? liqor_init s'))",new="guard (negb region || (0 <=? liqor_init s'))",edit='region rule inverted',claim='C79_conditions')
m(T,'perp_liq_base','check_liquidatable (bs_flag s) m h','check_liquidatable (bs_flag s) h m','init instead of maint health decides','C79_conditions',X)
m(T,'perp_liq_base','| (_, f) => Some (with_flag s f, None)','| (_, f) => Some (s, None)','mark kept although healthy','C79_nothing',X)
json.dump(M,open('/tmp/mutations5.json','w'))
print(len(M))
