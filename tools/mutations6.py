import json
M=[]
def m(file,df,old,new,edit,claim,expect):
    M.append(dict(id='S%03d'%(len(M)+1),file=file,**{'def':df},old=old,new=new,edit=edit,claim=claim,expect=expect))
A='AdminEdit.v'
for f,what in [('p_maw','maintenance asset weight'),('p_ilw','initial liability weight'),('p_dlimit','deposit limit'),('p_fallback','fallback oracle'),('p_insurance','insurance flag'),('p_sh_end','end of a shift'),('p_fc','force close'),('p_dis','disable liquidation')]:
    m(A,'needs_admin',' given (%s p) ||'%f,'' ,'%s may be set by the security admin'%what,'C91_security',['C91'])
m(A,'needs_admin','p_reset_sp p || p_reset_nb p ||','p_reset_nb p ||','stable price may be reset by the security admin','C91_security',['C91'])
m(A,'needs_admin','match p_iaw p with Some f => flt_nonzero f | None => false end','match p_iaw p with Some f => flt_lt f f_zero | None => false end','any init asset weight by the security admin','C91_security',['C91'])
m(A,'needs_admin','match p_plat p with Some f => flt_nonzero f | None => false end','match p_plat p with Some _ => false | None => false end','any platform fee by the security admin','C91_security',['C91'])
m(A,'needs_admin','(r =? 0) || ((r =? 2) && (s_ro s =? 1))','(r =? 0)','strict reduce-only may be weakened','C91_security',['C91'])
m(A,'needs_admin','(r =? 0) || ((r =? 2) && (s_ro s =? 1))','((r =? 2) && (s_ro s =? 1))','reduce-only may be switched off','C91_security',['C91'])
m(A,'may_edit','(negb require_admin && (e_security e =? e_signer e))','(e_security e =? e_signer e)','security admin may do all','C91_security',['C91'])
m(A,'may_edit','(negb require_admin && (e_security e =? e_signer e))','negb require_admin','anybody may tighten','C91_security',['C91'])
m(A,'edit_all','Some (s\' :: R, a || b)','Some (s\' :: R, b)','flag of later banks only','C91_security',['C91'])
m(A,'edit_all','Some (s\' :: R, a || b)','Some (s\' :: R, a)','flag of the first bank only','none: all banks are alike in reached states (C91 is stated for all)',['C91'])
m(A,'edit_one','maint_weights maw0 mlw0 (s_shift s) (e_now e)','(sh_asset (s_shift s), sh_liab (s_shift s))','abort jumps to the targets','C91_security',['C91'])
m(A,'edit_one','maint_weights maw0 mlw0 (s_shift s) (e_now e) else','(maw0, mlw0) else','abort goes back to the start','C91_security',['C91'])
m(A,'edit_one','let sh0 := if p_abort p then mkShift 0 0 0 0 0 else s_shift s in','let sh0 := s_shift s in','abort keeps the shift','C91_security',['C91'])
m(A,'edit_one','if given (p_sh_start p) || given (p_sh_end p) then shift_inv st en else sh_inv sh0','if given (p_sh_start p) then shift_inv st en else sh_inv sh0','duration not updated when only the end is given','C93_ranges',['C93'])
m(A,'edit_one','if match p_fc p with Some true => ro <=? 0 | _ => false end then None','if false then None','force close without reduce-only','C92_force',['C92'])
m(A,'edit_one','(opt (p_dlimit p) (s_dlimit s)) zero plat','(opt (p_dlimit p) (s_dlimit s)) plat zero','zero rate and platform fee swapped','C91_security',['C91'])
m(A,'edit_one','maw iaw mlw ilw liqfee','maw iaw ilw mlw liqfee','liability weights swapped','C91_security',['C91'])
m(A,'verify','(s_iaw s <=? s_maw s)','(s_iaw s <=? s_maw s + s_iaw s)','init weight may exceed maint','C93_ordered',['C93'])
m(A,'verify','(s_mlw s <=? s_ilw s)','(0 <=? s_ilw s)','maint liability weight may exceed init','C93_ordered',['C93'])
m(A,'verify','(s_ro s <=? 2)','(s_ro s <=? 3)','reduce-only 3','C93_ranges/C91',['C93'])
m(A,'verify','(negb (s_dis s) || (((s_ro s =? 1) || (s_ro s =? 2)) && (s_maw s =? 0)))','(negb (s_dis s) || (((s_ro s =? 1) || (s_ro s =? 2))))','disabled liquidation with collateral','C93_ordered',['C93'])
m(A,'verify','(negb (s_fw s) || ((s_ro s =? 1) && s_dis s && (s_maw s =? 0)))','(negb (s_fw s) || ((s_ro s =? 1) && (s_maw s =? 0)))','force withdraw with liquidation','C93_ordered',['C93'])
m(A,'verify','negb (flt_le (s_dscale s) f_zero)','negb (flt_lt (s_dscale s) f_zero)','scaling may start at 0','C93_ranges',['C93'])
m(A,'token_edit','(match L with s :: _ => verify s | [] => false end)','(match tk_banks t with s :: _ => verify s | [] => false end)','old settings verified','C93',['C93'])
m(A,'token_edit','(opt (p_insurance p) (tk_insurance t)) L)','(opt (p_insurance p) (tk_insurance t)) (firstn 1 L ++ skipn 1 (tk_banks t)))','only the first bank edited','C93_uniform',['C93'])
m(A,'add_bank','if negb (e_admin e =? e_signer e) then None','if false then None','anybody adds banks','(authorization only)',['C93'])
m(A,'from_existing','mkSet (s_oracle s) (s_conf s) (s_stale s) (s_oracle s)','mkSet (s_oracle s) 0 (s_stale s) (s_oracle s)','confidence filter of a new bank','C93_uniform',['C93'])
m(A,'update_settings','if done then shift_done s else s','if done then shift_done s else if sh_end (s_shift s) <=? now then s else s','(equivalent) ','none',['C93'])
m(A,'update_settings','let L := map (fun s => let s := set_sp sp s in if done then shift_done s else s) (tk_banks t) in','let L := match tk_banks t with s :: R => (let s := set_sp sp s in if done then shift_done s else s) :: R | [] => [] end in','only the first bank updated','C93_uniform',['C93'])
m(A,'update_settings','(max_one x)','x','scaling below 1','C93_ranges',['C93'])
m(A,'update_settings','(sh_end (s_shift first) <=? now)','(sh_start (s_shift first) <=? now)','shift done at its start','C94? (values between)',['C93','C94'])
m(A,'shift_done','(sh_asset (s_shift s)) (s_iaw s) (sh_liab (s_shift s)) (s_ilw s)','(sh_liab (s_shift s)) (s_iaw s) (sh_asset (s_shift s)) (s_ilw s)','targets swapped','C93_ordered_kept',['C93'])
m(A,'trustless','(dec 20 10000) (dec 5 1000) 0 0 (dec 14 10)','(dec 20 10000) (dec 5 1000) (dec 1 2) 0 (dec 14 10)','maint asset weight','C94',['C94'])
m(A,'trustless','(f_int\n  5000000000) (f_int 5000000000) 2 name','(f_int\n  5000000000) (f_int 5000000000) 0 name','borrowing allowed','C94',['C94'])
m(A,'register_trustless','(e_admin e =? e_signer e) || (fast_admin =? e_signer e)','true','anybody lists','C94_who',['C94'])
m(A,'fast_list','fl_start g + WEEK_S <=? now','fl_start g <=? now','interval always over','C94_limit',['C94'])
m(A,'fast_list','mkFL (now / WEEK_S * WEEK_S) 0 (fl_allowed g)','mkFL now 0 (fl_allowed g)','week starts anywhere','C94_limit',['C94'])
m(A,'fast_list','if c <=? fl_allowed g then','if fl_count g <=? fl_allowed g then','one too many','C94_limit',['C94'])
m(A,'fast_list','then Some (mkFL (fl_start g) c (fl_allowed g)) else None','then Some (mkFL (fl_start g) (fl_count g) (fl_allowed g)) else None','not counted','C94_limit',['C94'])
m(A,'fast_list','mkFL (now / WEEK_S * WEEK_S) 0 (fl_allowed g)','mkFL (now / WEEK_S * WEEK_S) (fl_count g) (fl_allowed g)','count never reset','C94_usable',['C94'])
m(A,'perp_edit','match pp_reduce_only p with Some b => negb b | None => false end ||\n                 given (pp_force_close p) ||','match pp_reduce_only p with Some b => negb b | None => false end ||','security admin force-closes','C92_perp',['C92'])
m(A,'perp_edit','match pp_reduce_only p with Some b => negb b | None => false end','match pp_reduce_only p with Some b => b | None => false end','reduce-only may be switched off','C92_perp',['C92'])
m(A,'serum_edit','given (sp_force_close p) || given (sp_name p) || given (sp_band p)','given (sp_force_close p) || given (sp_name p)','price band by the security admin','C92_spot',['C92'])
m(A,'serum_edit','match sp_force_close p with Some true => negb ro | _ => false end','false','force close without reduce-only','C92_force',['C92'])
P='PerpOrderIx.v'; X=['C88','C89','C90']
m(P,'perp_place_order','let* _ := guard (pe_signed e) in','','no signature','C89_only_signed',X)
m(P,'perp_place_order','let* o := reduced_order ro (pe_ro e) p o in','let* o := reduced_order ro false p o in','market reduce-only ignored','C89_reduce_only',X)
m(P,'perp_place_order','let* _ := guard (post_check h post) in','','no check afterwards','C89_checked',X)
m(P,'perp_place_order','let* hc := recompute_perp hc p (r_market r)','let* hc := recompute_perp hc p mk','old market','C89_true_health',X)
m(P,'perp_place_order','let* f := pre_check (pa_flag a) h h2 in','let* f := pre_check (pa_flag a) h2 h in','healths swapped','C89_checked',X)
m(P,'perp_place_order','let* post := health hc HInit in','let* post := health hc HMaint in','maint health afterwards','C89_checked',X)
m(P,'perp_place_order','guard ((0 <=? o_max_base o) && (0 <=? o_max_quote o))','guard (0 <=? o_max_quote o)','negative lots','C89_reached?',X)
m(P,'force_cancel_ix','if frozen || match l with Liquidatable => true | _ => false end || force then','if true then','always cancels','C90_when',X)
m(P,'force_cancel_ix','(mk_index mk) (pa_pk a) limit None 0','(mk_index mk) (pa_pk a + 1) limit None 0','orders of another account','C90_own_orders',X)
m(P,'force_cancel_ix','Some (bk, acc, recover f h, true)','Some (bk, acc, f, true)','mark stays','C90_mark',X)
m(P,'force_cancel_ix','let* h := health hc HLiqEnd in','let* h := health hc HInit in','init health decides recovery','C90_mark',X)
m(P,'force_cancel_ix','check_liquidatable (pa_flag a) hm he','check_liquidatable (pa_flag a) he hm','healths swapped','C90_when',X)
T='TokenMove.v'; X=['C85','C86']
m(T,'withdraw_ix','let* _ := guard (negb (we_delegate e) || (we_owner_ata e && negb (w_active r))) in','','delegates withdraw anywhere','C85',X)
m(T,'withdraw_ix','let* _ := guard (post_check h post) in Some (Some hc\')','Some (Some hc\')','no check afterwards','C85',X)
m(T,'withdraw_ix','let* _ := guard (negb (native b p <? of_int paid)) in','','borrow of a skipped token','C85',X)
m(T,'withdraw_ix','let* _ := guard (post_check_strict h) in Some (Some hc)','Some (Some hc)','health not checked for skipped tokens','C85',X)
m(T,'withdraw_ix','(native b\' p\' - native b p) w in','(- of_int paid) w in','fees forgotten','C85',X)
m(T,'withdraw_ix','if (amount =? U64_MAX) && negb allow_borrow && (native b p <? 0) then','if (amount =? U64_MAX) && (native b p <? 0) then','nothing withdrawn from a borrow though allowed','C85',X)
m(T,'withdraw_ix','net - to_int (fmul (of_int paid) (we_price e))','net - to_int (fmul (of_int amount) (we_price e))','net deposits by the amount asked','C85',X)
m(T,'deposit_ix','if negb (de_region e) && flag then','if flag then','recovery inside a region','C86',X)
m(T,'deposit_ix','if recover flag h then None else Some false','if recover flag h then Some true else Some false','deposit accepted while still marked','C86',X)
m(T,'deposit_ix','guard (to_int assets <=? de_limit e)','guard true','limit of the group ignored','C86',X)
m(T,'deposit_ix','assets_and_liabs hc HInit true','assets_and_liabs hc HMaint true','maint assets limited','C86',X)
m(T,'deposit_ix','guard (de_exists e || (negb existing && de_price_ok e))','guard (de_exists e || negb existing)','new position without price','C86',X)
m(T,'positions_with','(0 <=? t_ix p) t :: R','true t :: R','skippable borrows','C85/C86 (fresh borrow counted as surely positive)',X)
S='SettleIx.v'; X=['C87']
m(S,'perp_settle_pnl','let* bmax := perp_max_settle hc (wc_index (xe_cfg e)) in','let bmax := FX_MAX in','no limit by health','C87',X)
m(S,'perp_settle_pnl','deposit b (sa_tok a) (st_amount r - st_fee r) (xe_now e)','deposit b (sa_tok a) (st_amount r) (xe_now e)','fee paid twice','C87',X)
m(S,'perp_settle_pnl','withdraw_without_fee b1 (sa_tok c) (st_amount r) (xe_now e)','withdraw_without_fee b1 (sa_tok c) (st_amount r - st_fee r) (xe_now e)','loser pays less','C87',X)
m(S,'perp_settle_pnl','let* hc := acct_cache e b c in','let* hc := acct_cache e b a in','health of the wrong account','C87',X)
m(S,'perp_settle_pnl','let* _ := guard signed in','','no signature','C87',X)
m(S,'perp_settle_pnl','let* _ := guard (has_positions e a && has_positions e c) in','','missing positions','C87',X)
m(S,'perp_settle_pnl','let* ha := acct_cache e b a in','let* ha := acct_cache e b c in','bonus by the loser\'s health','C87',X)
C='Scaling.v'; X=['C84']
m(C,'scaled_init_asset_weight','(quot_fx start (deposits_quote b price))','(quot_fx (deposits_quote b price) start)','scaled up','C84',X)
m(C,'scaled_init_asset_weight','if deposits_quote b price <=? start then','if start <=? deposits_quote b price then','condition inverted','C84',X)
m(C,'scaled_init_liab_weight','(quot_fx (borrows_quote b price) start)','(quot_fx start (borrows_quote b price))','scaled down','C84',X)
m(C,'deposits_quote','f64_round (of_int (b_serum b))','0','tokens in spot orders forgotten','C84',X)
m(C,'token_info','scaled_init_liab_weight c b (liab_price pr HInit) in\n  Some (mkTI (wc_index c) (wc_maint_aw c) (wc_init_aw c) aw (wc_maint_lw c) (wc_init_lw c) lw','scaled_init_liab_weight c b (liab_price pr HInit) in\n  Some (mkTI (wc_index c) (wc_maint_aw c) (wc_init_aw c) aw (wc_maint_lw c) (wc_init_lw c) (wc_init_lw c)','liability weight not scaled','C84',X)
import sys
bad=0
for x in M:
    s=open('/verif/rocq/theories/'+x['file']).read()
    if x['old'] not in s: print('MISSING',x['id'],x['def'],x['old'][:60]); bad+=1
json.dump(M,open('/tmp/mutations6.json','w'),indent=1); print(len(M),bad)
