import json,sys
M=[]
def m(f,d,old,new,edit,claim,expect): M.append({'id':'U%03d'%(len(M)+1),'file':f,'def':d,'old':old,'new':new,'edit':edit,'claim':claim,'expect':expect})
S='StablePrice.v'; X=['C95','C96']
m(S,'growth_clamped','f_mul prev (f_add ONE limit) in','f_mul prev (f_add (f_add ONE limit) limit) in','upper bound twice as far','C95',X)
m(S,'growth_clamped','if limit <=? ONE then f_mul prev (f_sub ONE limit) else 0','0','no lower bound','C95',X)
m(S,'growth_clamped','if target <? min then min else if max <? target then max else target','if target <? min then target else if max <? target then max else target','falls unclamped','C95',X)
m(S,'update','if dt <? 10 then Some m','if dt <? 0 then Some m','no minimum time','C95',X)
m(S,'update','let dtl := Z.min dt 600 in','let dtl := dt in','time not capped at 600 s','C95',X)
m(S,'update','(f_mul (f_mul (st_sgl m) fraction) fraction)','(f_mul (st_sgl m) fraction)','fraction not squared','C95',X)
m(S,'update','if p <=? delay then f_div p delay else f_div delay p','if p <=? delay then f_div delay p else f_div p delay','fraction inverted','C95',X)
m(S,'update','(growth_clamped oracle p limit)','(growth_clamped oracle delay limit)','growth from the delay price','C95',X)
m(S,'update','growth_clamped oracle p limit) now L','growth_clamped oracle p limit) (st_last m) L','time of update not stored','C95',X)
m(S,'update','if st_reset m && (0 <? oracle) then reset_to oracle now m else m','m','no reset','C95',X)
m(S,'update','let m := if st_reset m && (0 <? oracle)','let m := if st_reset m','reset to zero','C95',X)
m(S,'reset_to','(repeat price 24)','(st_delay m)','delay prices not reset','C95',X)
m(S,'reset_to','(negb (0 <? price))','(0 <? price)','reset flag inverted','C95',X)
m(S,'update','(st_dgl m) (st_sgl m) ix (st_reset m))','(st_dgl m) (st_sgl m) ix true)','flag set by every update','C95',X)
m(S,'next_delays','(growth_clamped (f_div acc (f_of acc_t)) prev (st_dgl m))','(f_div acc (f_of acc_t))','delay price not clamped','C95',X)
m(S,'update','if ix =? st_ix m then Some (st_delay m, acc, acc_t)','if ix =? st_ix m then Some (st_delay m, 0, 0)','accumulator dropped','(refutation only)',X)
m(S,'update','f_add (st_acc m) (f_mul oracle (f_of dtl))','f_add (st_acc m) (f_mul oracle (f_of dt))','sparse updates counted in full: the defect repaired','C96_delay_refuted',X)
S='SettleFeesIx.v'; X=['C97']
m(S,'perp_settle_fees','Some (mkFO b mk (fees + s) a s)','Some (mkFO b mk fees a s)','settled fees not counted','C97',X)
m(S,'perp_settle_fees','let* _ := guard (0 <=? h) in','','no health check','C97',X)
m(S,'perp_settle_fees','health hc HInit','health hc HMaint','maintenance health checked','C97',X)
m(S,'perp_settle_fees','withdraw_without_fee b (sa_tok a) s (xe_now e)','withdraw_without_fee b (sa_tok a) (2 * s) (xe_now e)','twice the tokens taken','C97',X)
m(S,'perp_settle_fees','(xe_price e) max_amount','(xe_sprice e) max_amount','loss at the settle token price','C97',X)
m(S,'perp_settle_fees','let a := with_settled a (p, l) t in','let a := with_settled a (sa_perp a, l) t in','position not credited','C97',X)
m(S,'perp_settle_fees','acct_cache (with_market e mk) b a','acct_cache (with_market e mk) b (with_settled a (p, l) (mkTpos 0 0))','health without the settle tokens','C97',X)
m(S,'perp_settle_fees','Some (mkFO b mk fees (with_settled a (p, l) (sa_tok a)) 0)','Some (mkFO b mk (fees + fone) (with_settled a (p, l) (sa_tok a)) 0)','fees counted for nothing','C97',X)
S='HealthCheck.v'; X=['C98']
m(S,'health_ratio','assets_and_liabs hc ty false','assets_and_liabs hc ty true','the other split','C98',X)
m(S,'health_ratio','(A - L)) L','(A - L)) A','relative to the assets','C98',X)
m(S,'health_ratio','(fmul (of_int 100) (A - L))','(fmul (of_int 100) A)','assets over liabilities','C98',X)
m(S,'health_ratio','else fx_max','else 0','no liabilities: zero','C98',X)
m(S,'check_value','KRatio ty => health_ratio hc ty','KRatio ty => health_ratio hc HMaint','always the maintenance ratio','C98',X)
m(S,'check_value','KHealth ty => health hc ty','KHealth ty => health hc HMaint','always maintenance health','C98',X)
m(S,'health_check','if min <=? v then','if v <=? min then','comparison swapped','C98',X)
m(S,'health_check','if min <=? v then','if min <? v + fone then','off by one','C98',X)
m('Health.v','build_cache','if skip && negb (forallb','if false && negb (forallb','perps of skipped settle tokens accepted','C98',X)
S='ForceWithdraw.v'; X=['C99']
m(S,'force_withdraw','(net - to_int','(net + to_int','net deposits rise','C99',X)
m(S,'force_withdraw','(fmul (of_int paid) price)','(of_int paid)','net deposits in tokens','C99',X)
S='Auth.v'; X=['C99']
m(S,'force_withdraw_ix','let* _ := guard forced in','','flag not checked','C99',X)
m(S,'force_withdraw_ix','then owner_ata else alternate','then alternate else owner_ata','accounts swapped','C99',X)
m(S,'force_withdraw_ix','let* _ := guard (0 <=? native b p) in','','borrows accepted','C99',X)
m(S,'force_withdraw_ix','let amount := to_int (native b p) in','let amount := to_int (native b p) + 1 in','rounded up','C99',X)
m(S,'force_withdraw_ix','let* _ := guard (enforce_max_utilization b\' fone) in','','no borrow check','C99',X)
m(S,'force_withdraw_ix','guard (enforce_max_utilization b\' fone)','guard (enforce_max_utilization b fone)','old totals checked','C99',X)
m(S,'force_withdraw_ix','guard (amount <=? vault)','guard (0 <=? vault)','vault not checked','C99',X)
bad=0
for x in M:
    s=open('/verif/rocq/theories/'+x['file']).read()
    if s.count(x['old'])!=1: print('COUNT',s.count(x['old']),x['id'],x['def'],x['old'][:60]); bad+=1
json.dump(M,open('/tmp/mutations7.json','w'),indent=1); print(len(M),bad)
