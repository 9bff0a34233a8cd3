import json
M=[]
def m(file,df,old,new,edit,claim,expect):
    M.append(dict(id='P%03d'%(len(M)+1),file=file,**{'def':df},old=old,new=new,edit=edit,claim=claim,expect=expect))
T='TokenLiq.v'; X=['C69','C70']
m(T,'adjust_token_balance','ti_spot t - (- change)','ti_spot t - change','balance changed in the wrong direction','C70: health after',['C69','C70'])
m(T,'fee_factor_liqor','fmul (fone + lp_fee l) (fone + lp_fee a)','fmul (fone + lp_fee l + lp_platform l) (fone + lp_fee a + lp_platform a)','platform fee paid to the liqor','C69: platform fees go to the bank',X)
m(T,'fee_factor_total','fmul (fone + lp_fee l + lp_platform l) (fone + lp_fee a + lp_platform a)','fmul (fone + lp_fee l + lp_platform l) (fone + lp_fee a)','platform fee of the asset not charged','C69',X)
m(T,'liq_amounts','let* needed := cdiv (- health)','let* needed := cdiv (fone - health)','liquidates past zero','C70: health not above zero',X)
m(T,'liq_amounts','fmul llep (lp_init_lw l) - fmul lopa (lp_init_aw a)','fmul llep (lp_init_lw l) - fmul lopa (lp_init_lw a)','liab weight of the asset in the gain','C70',X)
m(T,'liq_amounts','Z.max (Z.min (Z.min needed possible) max_liab) 0','Z.max (Z.min needed max_liab) 0','asset balance does not limit','C69: no more asset than there is',X)
m(T,'liq_amounts','Z.max (Z.min (Z.min needed possible) max_liab) 0','Z.max (Z.min needed possible) 0','debt and request do not limit','C69',X)
m(T,'liq_amounts','Z.max (Z.min (Z.min needed possible) max_liab) 0','Z.max (Z.min (Z.min needed possible) max_liab / 2) 0','only half of what is possible','C70_complete',X)
m(T,'liq_amounts','cdiv (fmul liab lop) aop','cdiv (fmul liab aop) lop','prices swapped','C69: price',X)
m(T,'liquidation_action','let* _ := guard (0 <? a_native) in','','borrowed asset can be taken','C69_conditions',X)
m(T,'liquidation_action','let* _ := guard (lp_allow (le_a e)) in','','asset liquidation disabled ignored','C69_conditions',X)
m(T,'liquidation_action','let* _ := guard (l_native <? 0) in','','deposit bought','C69_conditions',X)
m(T,'liquidation_action','Z.max (Z.min (Z.min max_liab_transfer (- l_native)) (- nth il B 0)) 0','Z.max (Z.min max_liab_transfer (- l_native)) 0','perp pnl in the liab token ignored','C70: health',X)
m(T,'liquidation_action','Z.max (Z.min (Z.min max_liab_transfer (- l_native)) (- nth il B 0)) 0','Z.max (Z.min (- l_native) (- nth il B 0)) 0','caller limit ignored','C69_amounts',X)
m(T,'liquidation_action','let ab := set_totals ab (b_dep ab) (b_bor ab) (b_dust ab) (b_fees ab + fee) in','','platform fee vanishes','C69_amounts, C69_conserved',X)
m(T,'liquidation_action','deposit_with_dusting (ls_lbank s) (ls_ee_liab s) liab (le_now e)','deposit_with_dusting (ls_lbank s) (ls_ee_liab s) 0 (le_now e)','liqee not credited','C69',X)
m(T,'liquidation_action','let* (lb, or_liab, _) := withdraw_with_fee lb (ls_or_liab s) liab (le_now e) in','let or_liab := ls_or_liab s in','liqor not debited','C69',X)
m(T,'liquidation_action','deposit ab (ls_or_asset s) to_liqor (le_now e)','deposit ab (ls_or_asset s) from_liqee (le_now e)','liqor gets the platform fee too','C69',X)
m(T,'liquidation_action','(le_ia e) (native ab ee_asset - a_native) (le_swa e)','(le_ia e) 0 (le_swa e)','cache not updated for the asset','C70_flag',X)
m(T,'liquidation_action','Some (mkLS hc (recover (ls_flag s) h) ab','Some (mkLS hc (ls_flag s) ab','mark never removed','C70_flag',X)
m(T,'token_liq_with_token','let* _ := guard (negb liqor_flag) in','','bankrupt liqor','C69_conditions',X)
m(T,'token_liq_with_token','let* _ := guard (after_phase1 (ls_cache s)) in','','open orders not cancelled first','C69_conditions',X)
m(T,'token_liq_with_token','check_liquidatable (ls_flag s) m h','check_liquidatable (ls_flag s) h h','starts at init health','C69_conditions',X)
m(T,'token_liq_with_token','guard (region ||','guard (true ||','liqor health not checked','C69_conditions',X)
B='TokenBankr.v'; Y=['C71']
m(B,'liab_to_insurance','cdiv (fmul (be_price e) (fone + be_fee e)) ip','cdiv (be_price e) ip','liqor gets no fee','C71_insurance',Y)
m(B,'liab_to_insurance','| None => Some fone','| None => Some (fone + be_fee e)','fee in the insurance token itself','C71_insurance',Y)
m(B,'insurance_amounts','if be_eligible e then vault else 0','vault','uninsured tokens get insurance','C71_insurance',Y)
m(B,'insurance_amounts','ceil_int (fmul (Z.min loss mx) f)','to_int (fmul (Z.min loss mx) f)','payment rounded down','C71_complete',Y)
m(B,'insurance_amounts','Z.min loss mx','loss','caller limit ignored','C71_insurance',Y)
m(B,'insurance_amounts','Z.min loss mx','mx','loss does not limit the payment','C71_insurance',Y)
m(B,'insurance_amounts','let pay := Z.min c avail in','let pay := c in','vault does not limit','C71_insurance',Y)
m(B,'insurance_amounts','Some (pay, liab, pay =? avail)','Some (pay, liab, true)','depositors pay although the fund has money','C71_last_resort',Y)
m(B,'insurance_amounts','Some (pay, liab, pay =? avail)','Some (pay, liab, false)','loss never socialized','C71_complete',Y)
m(B,'insurance_amounts','Some (pay, liab, pay =? avail)','Some (pay, liab, pay =? vault)','uninsured debt is never socialized','C71_complete',Y)
m(B,'insure','deposit ib or_ins (of_int pay) (be_now e)','deposit ib or_ins (of_int (pay + 1)) (be_now e)','liqor gets one token too much','C71_liqor, C71_conserved',Y)
m(B,'insure','let* (lb, or_liab, _) := withdraw_with_fee lb or_liab liab (be_now e) in','','liqor does not take over the debt','C71_liqor, C71_conserved',Y)
m(B,'insure','let* _ := guard (liqor_ok lb ib or_liab or_ins) in','','liqor health not checked','C71_conditions',Y)
m(B,'insure','let* _ := guard (of_int pay =? liab) in','','(consistency check dropped; always true)','none',Y)
m(B,'token_liq_bankruptcy','let* _ := guard (after_phase2 (bs_cache s) (combine (hc_tokens (bs_cache s)) B)) in','','assets left','C71_conditions',Y)
m(B,'token_liq_bankruptcy','let* _ := guard (nth il B 0 <? 0) in','','debt outweighed by perp pnl','C71_conditions',Y)
m(B,'token_liq_bankruptcy','Z.min (- initial) (- nth il B 0)','- initial','perp pnl ignored in the loss','C71_insurance',Y)
m(B,'token_liq_bankruptcy','loss - (native lb1 ee1 - initial)','loss','insured part put on depositors as well','C71_depositors',Y)
m(B,'token_liq_bankruptcy','if exhausted && (0 <? loss1) then','if 0 <? loss1 then','depositors pay before the fund is used up','C71_last_resort',Y)
m(B,'token_liq_bankruptcy','(bs_vault s - pay)','(bs_vault s)','vault not reduced','C71_conserved',Y)
m(B,'token_liq_bankruptcy','recover true h','recover (bs_flag s) h','mark not set','C71_conditions?',Y)
m(B,'token_liq_bankruptcy','let* _ := guard (negb liqor_flag) in','','bankrupt liqor','C71_conditions',Y)
m('BankSystem.v','socialize','(b_di b0 - q)','(b_di b0)','deposit index not reduced','C71_depositors',Y)
m('BankSystem.v','socialize','let* b0 := nth_error banks k in','let* b0 := nth_error banks 0 in','index of the first bank used','C71_depositors (banks of a token agree on the index)',Y)
F='ForceClose.v'; W=['C72']
m(F,'force_close_borrows','let* _ := guard signed in','','liqor did not sign','C72_conditions',W)
m(F,'force_close_borrows','let* _ := guard (negb liqor_flag) in','','bankrupt liqor','C72_conditions',W)
m(F,'force_close_borrows','let* _ := guard force in','','any token','C72_conditions',W)
m(F,'force_close_borrows','negb (borrows_reduce_only (ls_abank s))','negb (deposits_reduce_only (ls_abank s))','borrow of a no-borrow token','C72_conditions',W)
m(F,'force_close_borrows','fmul (lp_init_lw (le_a e)) total <=? lp_init_lw (le_l e)','lp_init_lw (le_a e) <=? lp_init_lw (le_l e)','fees not in the weight comparison','C72_health',W)
m(F,'force_close_borrows','let* _ := guard (l_native <? 0) in','','no debt','C72_conditions',W)
m(F,'force_close_borrows','let* _ := guard (0 <? or_native) in','','liqor without deposit','C72_conditions',W)
m(F,'force_close_borrows','Z.min (Z.min (of_int max_liab_transfer) (- l_native)) or_native','Z.min (of_int max_liab_transfer) (- l_native)','liqor deposit does not limit (checked later)','C72_amounts',W)
m(F,'force_close_borrows','Z.min (Z.min (of_int max_liab_transfer) (- l_native)) or_native','Z.min (of_int max_liab_transfer) or_native','debt does not limit','C72_amounts',W)
m(F,'force_close_borrows','let to_liqor := fmul base (fee_factor_liqor (le_a e) (le_l e)) in','let to_liqor := base in','liqor gets no fee','C72_amounts',W)
m(F,'force_close_borrows','(b_fees ab + fee)','(b_fees ab)','platform fee vanishes','C72_conserved',W)
m(F,'force_close_borrows','let* (ab, or_asset, _) := deposit ab (ls_or_asset s) to_liqor (le_now e) in','let or_asset := ls_or_asset s in','liqor gets nothing','C72_balances',W)
m(F,'force_close_borrows','withdraw_without_fee_with_dusting ab (ls_ee_asset s) from_liqee','withdraw_without_fee_with_dusting ab (ls_ee_asset s) to_liqor','liqee pays no platform fee','C72_balances',W)
m(F,'force_close_borrows','let* _ := guard (0 <=? liqor_init ab lb or_asset or_liab) in','','liqor health unchecked','C72_conditions',W)
m(F,'force_close_borrows','let* _ := guard (w_loan r =? 0) in','','(loan check dropped; the deposit cap implies it)','C72_no_borrow still holds',W)
m(F,'force_close_borrows','recover (ls_flag s) h','recover true h','mark set','C72_flag',W)
json.dump(M,open('/tmp/mut3.json','w'))
for x in M:
    import os
    s=open('/verif/rocq/theories/'+x['file']).read()
    if s.count(x['old'])!=1: print(x['id'],s.count(x['old']),x['old'])
print(len(M))
