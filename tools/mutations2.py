import json
M=[]
def m(file,df,old,new,edit,claim,expect=[]):
    M.append(dict(id='N%03d'%(len(M)+1),file=file,**{'def':df},old=old,new=new,edit=edit,claim=claim,expect=expect))
B='Bank.v'
m(B,'native','if 0 <? t_ix p then fmul (t_ix p) (b_di b) else','if t_ix p <? 0 then fmul (t_ix p) (b_di b) else','deposit and borrow index swapped','C24: value of positions',['C24'])
m(B,'update_net_borrows','else Some (set_window b (now / b_win_size b * b_win_size b) amt)','else Some (set_window b (now / b_win_size b * b_win_size b) (b_win_net b + amt))','a new window keeps the old net borrows','C27: window sum',['C27'])
m(B,'update_net_borrows','if b_win_start b + b_win_size b <=? now then','if b_win_start b + b_win_size b <? now then','window boundary off by one','C27',['C27'])
m(B,'div_rounding_up','then i + 1 else i)','then i else i)','deposits round down','C24: a deposit is worth at least what was paid in',['C24'])
m(B,'add_deposits','mkTpos (t_ix p + c) (t_use p), true)','mkTpos (t_ix p + c + 1) (t_use p), true)','position gets one unit more than the total','C23',['C23'])
m(B,'deposit_internal','Some (set_totals b (b_dep b) (b_bor b - c) (b_dust b) (b_fees b), mkTpos nix','Some (set_totals b (b_dep b) (b_bor b) (b_dust b) (b_fees b), mkTpos nix','repaying does not reduce total borrows','C23',['C23'])
m(B,'deposit_internal','else if (new_native <? fone) && dusting then','else if (new_native <=? fone) && dusting then','dusts a whole native unit','C26',['C26'])
m(B,'deposit_internal','let* b := update_net_borrows b (Z.max np (- amount)) now in','let* b := update_net_borrows b (- amount) now in','deposit part counted as repaid borrow','C27: deposits counted',['C27'])
m(B,'deposit','deposit_internal b p amount (negb (in_use p)) now.','deposit_internal b p amount true now.','positions in use get dusted','C26_in_use_kept',['C26_in_use'])
m(B,'add_borrows','(b_fees b + fee) in\n  let* b := update_net','(b_fees b) in\n  let* b := update_net','origination fee not collected','C25: fee goes to the bank',['C25'])
m(B,'add_borrows','let amount := amount + fee in\n  let* c','let* c','origination fee not charged to the borrower','C25',['C25'])
m(B,'withdraw_internal','(- new_native) with_fee now','amount with_fee now','fee and borrow on the whole amount','C25: fee only on the borrowed part',['C25'])
m(B,'withdraw_internal','Some (set_totals b (b_dep b - t_ix p) (b_bor b) (b_dust b + new_native) (b_fees b),','Some (set_totals b (b_dep b - t_ix p) (b_bor b) (b_dust b) (b_fees b),','dust not booked','C26',['C26'])
m(B,'withdraw_with_fee','withdraw_internal b p amount true','withdraw_internal b p amount false','no fee','C25',['C25'])
m(B,'withdraw_loan_origination_fee','let fee := fmul (b_lof b) already in','let fee := 0 in','settled serum loans pay no fee','C25',['C25'])
m(B,'dust_if_possible','(0 <=? n) && (n <? fone)','(n <? fone)','borrows get dusted','C26',['C26'])
m(B,'remaining_net_borrows_quote','Z.max oracle (b_stable b)','Z.min oracle (b_stable b)','lower price used for the borrow limit','C27_limit_enforced',['C27'])
m(B,'remaining_net_borrows_quote','if (b_win_net b <? 0) ||','if (b_win_net b <? 100) ||','small borrows not counted','C27',['C27'])
m(B,'remaining_deposits_until_limit','(b_dep b + 1)','(b_dep b)','no rounding allowance','C28',['C28'])
m(B,'check_deposit_and_oo_limit','(native_deposits b + of_int (b_serum b))','(native_deposits b)','potential serum deposits ignored','C28',['C28'])
m(B,'enforce_max_utilization','negb (fmul max (native_deposits b) <? native_borrows b)','negb (native_deposits b <? native_borrows b)','max utilization ignored','C31',['C31'])
m(B,'checked_transfer','guard ((0 <=? t_ix src) || negb (borrows_reduce_only b))','guard ((0 <=? t_ix src) || negb (deposits_reduce_only b))','borrow in no-borrow mode','C52',['C52'])
m(B,'checked_transfer','if before_bor + 1 <? b_bor b then guard (check_net_borrows b oracle)','if b_bor b <? before_bor then guard (check_net_borrows b oracle)','net borrow check reversed','C27/C67')
m(B,'token_deposit','guard (reduce_only || (amt =? of_int amount))','guard true','deposit beyond the borrow in reduce-only mode silently truncated','C52_reduce_only_deposit')
m(B,'token_deposit','then Z.min (fceil (Z.abs (Z.min (native b p) 0))) (of_int amount)','then of_int amount','reduce-only ignored','C52',['C52'])
m(B,'token_deposit','if 0 <? t_ix p\' then guard (check_deposit_and_oo_limit b\')','if t_ix p\' <? 0 then guard (check_deposit_and_oo_limit b\')','deposit limit checked for borrowers only','C28',['C28'])
m(B,'token_withdraw','let* _ := guard (allow_borrow || negb is_borrow) in','','allow_borrow ignored','C52_no_new_borrow',['C52'])
m(B,'token_withdraw','let is_borrow := np <? of_int amount in','let is_borrow := np + fone <? of_int amount in','boundary of borrow detection','C52',['C52'])
m(B,'token_withdraw','let* _ := guard (amount <=? vault) in','','vault balance not checked','C53: tokens paid out are in the vault')
m(B,'token_withdraw','&& oracle_ok && check_net_borrows','&& check_net_borrows','borrow against an unchecked oracle','C27_limit_enforced')
S='BankSystem.v'
m(S,'bank_op','let b0 := set_totals b (b_dep b) (b_bor b) (b_dust b) (b_fees b + fee) in','let b0 := set_totals b (b_dep b) (b_bor b) (b_dust b) (b_fees b + fee + fee) in','fee booked twice','C53: claims covered',['C53'])
m(S,'from_existing','mkBank (b_di b) (b_bi b) 0 0 0 0','mkBank (b_di b) (b_bi b) (b_dep b) 0 0 0','new bank copies deposits','C23',['C23'])
m(S,'update_index','b :: rest => Some (set_index b (r_di r) (r_bi r) (b_fees b + r_fees r) now :: rest)','b :: rest => Some (b :: rest)','loan fees not collected on index update','C29_crank/C53')
m(S,'update_index','let dt := Z.min (now - b_upd b0) 3600 in','let dt := now - b_upd b0 in','time step not capped','C29_crank',['C29'])
m(S,'update_index','(sum_z b_dep banks) (sum_z b_bor banks)','(sum_z b_bor banks) (sum_z b_dep banks)','deposits and borrows swapped','C29',['C29'])
m(S,'socialize','(b_di b0 - q) p loss true now','(b_di b0) p loss true now','depositors not charged for the loss','C53',['C53'])
m(S,'credit_banks','let left := left - amount in','let left := left in','loss credited again in every bank','C23/C53')
m(S,'withdraw_fees','set_fw b (b_fw b + amount), amount)','set_fw b (b_fw b), amount)','withdrawn fees not recorded','C53',['C53'])
m(S,'put_back','guard (negb act && (t_use p =? 0))','guard (t_use p =? 0)','positions with balance can be closed','C23',['C23'])
I='Interest.v'
m(I,'curve','Some (i_rate0 c + fmul slope (u - i_util0 c))','Some (i_rate0 c + fmul slope u)','second segment does not start at util0','C30',['C30_piecewise'])
m(I,'curve','cdiv (i_max c - i_rate1 c) (fone - i_util1 c)','cdiv (i_max c - i_rate0 c) (fone - i_util1 c)','slope of third segment from rate0','C30',['C30_piecewise'])
m(I,'interest_rate','if i_scale c =? 0 then v else fmul v (i_scale c)','fmul v (i_scale c)','zero scaling gives zero rate','C30_scaled',['C30_scaled'])
m(I,'compute_index','let deposit_rate := fmul rate u in','let deposit_rate := rate in','depositors paid the full borrow rate','C29_not_overpaid',['C29_not_overpaid'])
m(I,'compute_index','let with_fees := rate + i_loan c in','let with_fees := rate in','loan fee not charged','C29',['C29'])
m(I,'compute_index','+ di)','+ di - 1)','deposit index shrinks by rounding','C29_indexes_grow',['C29_indexes'])
m(I,'utilization','Z.min (Z.max (fdiv native_bor native_dep) 0) fone','fdiv native_bor native_dep','utilization above one','C29',['C29'])
F='Buyback.v'
m(F,'expire_fees','let prev := if now <? lim then bf_current f else 0 in','let prev := bf_current f in','fees of any age kept one more interval','C34_lifetime',['C34_lifetime'])
m(F,'expire_fees','(now / interval + 1) * interval','(now / interval) * interval','expiry at the start of the interval','C34',['C34'])
m(F,'reduce_fees','bf_current f - rest) 0','bf_current f) 0','fees of the current interval can be spent twice','C34_spend',['C34_spend'])
m(F,'fees_accrued','sat_add (bf_current f) (bf_previous f)','bf_current f','previous interval not spendable','C34_buyback',['C34'])
m(F,'buyback_fees','reduce_fees f1 (ceil_int usd\')','reduce_fees f1 (to_int usd\')','spent amount rounded down','C34_buyback',['C34_buyback'])
m(F,'buyback_fees','let mngo := Z.min (fdiv usd price) account_mngo in','let mngo := fdiv usd price in','more MNGO taken than the account has','C34_buyback',['C34_buyback'])
m(F,'buyback_fees','let fees := fdiv usd\' fees_price in','let fees := fdiv usd fees_price in','fees paid for MNGO not taken','C34_buyback',['C34_buyback'])
D='Div30.v'
m(D,'div30','let r_neg := xorb (a <? 0) (b <? 0) in','let r_neg := a <? 0 in','sign of the divisor ignored','C43',['C43'])
m(D,'div30','let s := 48 + bn_shift - an_shift in','let s := 48 - bn_shift - an_shift in','shift direction','C43',['C43'])
m(D,'div30','if 63 + rr_zeros <? s then','if 64 + rr_zeros <? s then','overflow test off by one','C43',['C43'])
m(D,'clamp_to_u64','if x <=? 0 then 0\n','if x <=? 0 then 1\n','negative clamps to one','C43_clamp',['C43_clamp'])
G='IxGate.v'
m(G,'requires_admin','bit old i && negb (bit new i)','negb (bit old i) && bit new i','enabling allowed for the security admin, disabling not','C38_who_may_set',['C38_who'])
m(G,'requires_admin','(seq 0 128)','(seq 0 64)','only 64 bits compared','C38_who_may_set',['C38_who'])
m(G,'group_edit','if g_admin g =? signer then\n    match admin_opt','if (g_admin g =? signer) || (g_security g =? signer) then\n    match admin_opt','security admin may edit the group','C38_who/stays',['C38'])
m(G,'serum3_place_gate','then v2 && writable else v1','then writable else v1','v2 gate not checked','C38_serum3',['C38_serum3'])
L='SettleLimit.v'
m(L,'update_settle_limit','Some (mkLim (now / sc_window c) 0 (lm_rec l))','Some (mkLim (now / sc_window c) (lm_used l) (lm_rec l))','used amount not reset','C21_window',['C21_window'])
m(L,'settle_limit','Z.min (Z.abs (lm_rec l)) (stable_upnl_abs p mk c)','Z.abs (lm_rec l) ','recurring allowance not capped by pnl','C21')
m(L,'settle_limit','(Z.min mn 0, Z.max mx 0).','(mn, mx).','limits can have the wrong sign','C21_limits_signed')
m(L,'available_settle_limit','Z.max (sat64 (mx - lm_used l)) 0','Z.max (sat64 mx) 0','used amount not deducted','C21_sum',['C21'])
m(L,'apply_pnl_settle_limit','if pnl <? 0 then Z.max pnl (of_int mn) else','if pnl <? 0 then pnl else','negative side unlimited','C20/C21',['C2'])
m(L,'constrain_recurring','Z.max (Z.min before upnl) 0','before','recurring allowance not constrained','C21_recurring',['C21_recurring'])
m(L,'record_settle','add_quote p (- settled) (- red)','add_quote p settled (- red)','sign of the settled amount','C20',['C20'])
m(L,'record_settle','lm_used l\' + used','lm_used l\'','settled amount not counted','C21',['C21'])
m(L,'compute_settle_fee','let fee := Z.min fee settlement in','','fee above settlement','C20_settle_fee',['C20'])
m(L,'compute_settle_fee','(fmul (sc_fee_flat c) (of_int 2))','(fmul (sc_fee_flat c) (of_int 3))','low health fee cap','C20_settle_fee',['C20'])
m(L,'settle_pnl','Z.max (Z.min (Z.min a_able (- b_able)) bmax) 0','Z.max (Z.min a_able (- b_able)) 0','B pays more than its health allows','C20_settle_pnl',['C20'])
m(L,'settle_pnl','a b (s - fee) (- s) fee)','a b s (- s) fee)','fee not taken from A','C20',['C20'])
m(L,'settle_fees','with_fees mk (mk_fees_accrued mk - s)','with_fees mk (mk_fees_accrued mk)','fees can be settled twice','C20_settle_fees',['C20_settle_fees'])
P='PerpMoney.v'
m(P,'funding_rate','Z.max (fc_min fc) (Z.min (fc_max fc) diff)','diff','funding rate not clamped','C19',['C19'])
m(P,'funding_rate','| Some _, None => Some (fc_max fc)','| Some _, None => Some (fc_min fc)','one-sided book pays the wrong side','C19_direction',['C19'])
m(P,'update_funding','(mk_short_funding mk + delta), now)','(mk_short_funding mk - delta), now)','shorts pay as well','C19',['C19'])
m(P,'update_funding','Z.min (now - last) MAX_FUNDING_STEP','now - last','funding step unbounded','C19_update',['C19'])
m(P,'socialize_loss','(mk_long_funding mk - s) (mk_short_funding mk + s)','(mk_long_funding mk - s) (mk_short_funding mk)','only longs bear the loss','C22_socialize',['C22'])
m(P,'socialize_loss','fdiv loss (of_int (mk_open_interest mk))','fdiv loss (of_int (2 * mk_open_interest mk))','half of the loss socialized','C22_socialize',['C22'])
m(P,'liq_negative','let ins := Z.min want cover in','let ins := want in','insurance fund overdrawn','C55',['C55'])
m(P,'liq_negative','if (ins =? cover) && (0 <? remaining) then','if (0 <? remaining) then','socialized before the insurance fund is empty','C55',['C55'])
m(P,'liq_negative','if (s =? max_e) && (pnl <? 0) then','if (pnl <? 0) then','bankruptcy before settling','C55',['C55'])
m(P,'liq_base','let qo := fmul (- q) f_liqor in','let qo := fmul (- q) f_all in','liqor pays the platform fee','C56',['C56'])
m(P,'liq_base','let fee := Z.max (- qo - qe) 0 in','let fee := 0 in','platform fee lost','C56',['C56'])
m(P,'updates','let t := Z.max (Z.min (p_base pa) (Z.abs (p_base pb))) 0 in','let t := p_base pa in','force close flips the counterparty','C22_force_close')
H='Health.v'
m(H,'liab_price','HInit => Z.max (pr_oracle p) (pr_stable p)','HInit => pr_oracle p','stable price ignored for liabilities','C36',['C36'])
m(H,'spot_amount_taken','(0 <? awp) && (fdiv health awp <=? spot)','(0 <? awp)','asset part not capped by the balance','C42',['C42'])
m(H,'contribution','if bal <? 0 then liab_wp t ty else asset_wp t ty','if bal <? 0 then asset_wp t ty else liab_wp t ty','weights swapped','C36/C59',['C59'])
m(H,'health_effect','if reserved <=? m then (reserved, 0) else','if true then (reserved, 0) else','reserved amount always at asset weight','C61',['C61'])
m(H,'reserved_as_base','Z.min o (si_quote_as_base si)','si_quote_as_base si','oracle price bound dropped','C61',['C61'])
m(H,'execution_case','if net <? 0 then liab_price (pi_prices pi) ty else asset_price','if net <? 0 then asset_price (pi_prices pi) ty else asset_price','short positions valued at the asset price','C57',['C57'])
m(H,'uhupnl','execution_case pi ty (- pi_asks pi)','execution_case pi ty (pi_asks pi)','asks counted as bids','C57',['C57'])
m(H,'hupnl','if 0 <? u then fmul (overall_weight pi ty) u else u','fmul (overall_weight pi ty) u','overall weight shrinks losses','C57_overall',['C57'])
m(H,'perp_max_settle','balances hc HMaint true','balances hc HMaint false','negative perp pnl counted','C42_max_settle',['C42_max'])
m(H,'liq_asset','(fone <=? snd tb) && ti_liq_ok','ti_liq_ok','effective balance ignored','C60/C62')
m(H,'has_phase2','|| has_perp_open_fills hc','','open fills do not block phase 3','C62',['C6'])
m(H,'after_phase2','negb (has_perp_positive hc)','true','bankruptcy with positive perp pnl left','C62',['C6'])
m(H,'build_tokens','if pin_nonneg p then build_tokens skip L\' else None\n','build_tokens skip L\'\n','borrows can be skipped','C58',['C58'])
m(H,'build_serum','| _, _ => if skip then build_serum skip L\' toks else None','| _, _ => build_serum skip L\' toks','markets silently skipped','C58')
m(H,'assets_and_liabs','fold_left split_add C T','T','spot orders left out','C59',['C59'])
Q='LiqState.v'
m(Q,'recover','negb (- fone <? liq_end)','negb (- of_int 10 <? liq_end)','recovers too early','C37_leave',['C37'])
m(Q,'pre_check','let flag := recover flag init in','','init health does not recover','C37')
m(Q,'post_check','if post <? of_int (-1000) then fceil pre <=? fceil post else pre <=? post','fceil pre <=? fceil post','rounding tolerance near zero','C35',['C35'])
m(Q,'check_liquidatable','if 0 <=? maint then','if 0 <? maint then','zero maint health liquidatable','C37_start',['C37'])
m(Q,'maint_weights','else if sh_end s <=? now then','else if sh_end s + 10 <=? now then','shift overshoots','C63',['C63'])
A='AccountSlots.v'
m(A,'ensure_token','if t_index p =? t then Some (a, raw, act)','if false then Some (a, raw, act)','existing position reset','C32_ensure_token',['C32'])
m(A,'ensure_scan','match mf with None => Some (raw, act) | Some _ => mf end','Some (raw, act)','last free slot used','C32_ensure_token (first free slot)')
m(A,'decrement_in_use','Z.max 0 (t_uses p - 1)','0','in-use count cleared','C64',['C64'])
m(A,'deactivate_token','if t_uses p =? 0\n','if true\n','positions in use can be closed','C64',['C64'])
m(A,'create_serum','| Some _ => None\n  | None =>\n      match position (fun p => negb (s_active p))','| Some _\n  | None =>\n      match position (fun p => negb (s_active p))','same market twice','C32',['C32'])
m(A,'serum_close','match release a (base_of k m) with','match Some a with','base token not released','C64',['C64'])
m(A,'swap_create','((next_id a2 + 1) mod 2 ^ 64)','(next_id a2)','id not advanced','C32_swap_ids',['C32'])
m(A,'refit','if Nat.leb (length k) n then Some (k ++','if true then Some (firstn n k ++','active slots dropped','C64/C33',['C'])
R='Resize.v'
m(R,'memmove','m (src + (a - dst))','m (src + (a - dst) + 1)','copy off by one','C33',['C33'])
m(R,'blocked','then S n\' else','then n\' else','last open order not counted','C33',['C33'])
m(R,'check_resize','Nat.leb (health_accounts new) 28','Nat.leb (health_accounts new) 280','limit of health accounts','C33_rejects',['C33'])
m(R,'resize','move_right (move_right (move_right (move_right m5 b_tcs) b_oo) b_perp) b_serum','move_right (move_right (move_right (move_right m5 b_serum) b_perp) b_oo) b_tcs','moves in the wrong order','C33_preserves',['C33'])
m(R,'resize','let d4 := defaults d3 (oo_off new) k_oo bo (oc new - bo) in','let d4 := d3 in','new open order slots not initialized','C33',['C33'])
m(R,'resize','write_len l3 (oo_off new) (oc new)','write_len l3 (oo_off new) (oc old)','old length written','C33_header',['C33_header'])
T='TxRules.v'
m(T,'scan_flash','else if existsb (Z.eqb MANGO) (i_accts i) then false','','inner calls to mango allowed','C39_no_calls',['C39'])
m(T,'scan_flash','(m =? Z.of_nat n) && (a =? acct) && list_eqb trail l','(m =? Z.of_nat n) && (a =? acct)','other vaults in the end instruction','C39',['C39'])
m(T,'scan_flash','(m =? Z.of_nat n) && (a =? acct) && list_eqb trail l','(m =? Z.of_nat n) && list_eqb trail l','another account in the end instruction','C39',['C39'])
m(T,'begin_loans','let* _ := guard ((fb_approved b =? 0) && (fb_initial b =? U64_MAX)) in','','bank already lent','C39_repaid',['C39'])
m(T,'begin_loans','negb (ta_owner t =? group)','true','loan paid into a vault','C39')
m(T,'end_scan','(if 0 <? repay then of_int repay else 0)','of_int repay','missing tokens charged twice','C39_repaid',['C39'])
m(T,'apply_change','set_flash (set_fbank b x2) 0 U64_MAX','set_fbank b x2','loan stays open','C39_loans_closed',['C39'])
m(T,'apply_change','c_amount c - lof - sf in','c_amount c - sf in','loan fee not charged','C39_repaid',['C39'])
m(T,'flash_end','let* _ := guard (forallb (fun i => existsb (fun c => Nat.eqb (c_vault c) i) L) (seq 0 n)) in','','loans may be left out','C39',['C39'])
m(T,'flash_end','let* _ := guard (post_check init post) in','','no health check','C39',['C39'])
m(T,'scan_region','if negb (i_prog i =? MANGO) then false','if negb (i_prog i =? MANGO) then scan_region acct r','other programs inside a region','C40',['C40'])
m(T,'scan_region','n => allowed_inner n && scan_region acct r','n => scan_region acct r','any instruction inside a region','C40',['C40'])
m(T,'region_end','let* _ := guard (post_check (of_int (m_region_health a)) init) in','','health not checked at the end','C40',['C40'])
m(T,'region_begin','let* _ := guard (negb (m_region a)) in','','nested regions','C40',['C40'])
C='Tcs.v'
m(C,'max_sell_for_position','clamp_u64 (ffloor pos)','clamp_u64 (fceil pos)','sells into a borrow','C67/C66')
m(C,'trade_amount_inner','let sell := Z.min max_sell sell_for_buy in','let sell := sell_for_buy in','max sell not applied','C66',['C66'])
m(C,'trade_amount_inner','Some (to_int (ffloor q))','Some (to_int (fceil q))','buy rounded up','C66',['C66'])
m(C,'swap_trigger','let* sold := chk_u64 (k_sold c + x_paid x) in','let* sold := chk_u64 (k_sold c + x_got x) in','fees not counted as sold','C41_totals',['C41'])
m(C,'swap_trigger','let* bought := chk_u64 (k_bought c + x_buy x) in','let* bought := chk_u64 (k_bought c) in','bought not counted','C41_totals',['C41'])
m(C,'swap_trigger','let* _ := guard (negb (s_flag liqor)) in','','triggered by an account being liquidated','C67_conditions',['C67'])
m(C,'swap_trigger','let* _ := guard (check_triggerable c q now) in','','trigger condition ignored','C67_conditions',['C67'])
m(C,'swap_trigger','let* _ := guard (min_buy <=? x_buy x) in','','minimum ignored','C67_conditions',['C67'])
m(C,'swap_trigger','let* _ := guard (0 <=? hi_liqor h) in','','liqor health ignored','C67_conditions',['C67'])
m(C,'check_triggerable','| _ => passed_start c now','| _ => true','auction triggers before its start','C67_conditions',['C67'])
m(C,'swap_trade','(b_fees sb + of_int (maker_fee + taker))','(b_fees sb + of_int maker_fee)','taker fee lost','C67_moves',['C67'])
m(C,'swap_trade','let* to_liqor := chk_u64 (sell - taker) in','let* to_liqor := chk_u64 sell in','taker fee created from nothing','C67_moves',['C67'])
m(C,'swap_done','(future_buy =? 0) || (future_sell =? 0) || low','low','exhausted swaps stay open','C41_exhausted',['C41_exhausted'])
m(C,'swap_start','let* sold := chk_u64 (k_sold c + incentive_native) in','let* sold := chk_u64 (k_sold c) in','incentive not counted as sold','C41_totals',['C41'])
m(C,'swap_cancel','let* _ := guard (k_id c =? id) in','','another swap is cancelled','C41',['C41'])
m(C,'is_expired','k_expiry c <=? now','k_expiry c <? now','expiry boundary','C67_conditions',['C67'])
O='Oracle.v'
m(O,'check_staleness','Z.min U64_MAX (os_slot s + cf_stale c) <? now_slot','Z.min U64_MAX (os_slot s + 2 * cf_stale c) <? now_slot','twice as stale accepted','C44',['C44'])
m(O,'check_confidence','negb (lim <? os_dev s)','lim <? os_dev s','comparison reversed','C44',['C44'])
m(O,'check_state','if fresh then check_confidence s c else Some false','if fresh then Some true else Some false','confidence not checked','C44',['C44'])
m(O,'bank_price','let* _ := guard (bk_fallback b =? a_key f) in','','any fallback account accepted','C44',['C44'])
m(O,'bank_price','let* ok := check_state s (bk_cfg b) now in\n    let* _ := guard ok in\n    Some (os_price s).\n(** perp','Some (os_price s).\n(** perp','fallback not checked','C44',['C44'])
m(O,'bank_price','let* _ := guard (bk_oracle b =? a_key (oi_oracle i)) in','','any oracle accepted','C44',['C44'])
m(O,'scaled','let* d := chk_i8 (d - base) in','','base decimals ignored','C44_pyth_value',['C44_pyth'])
m(O,'scaled','let* _ := guard (0 <=? price) in\n  Some (mkOs price dev (pq_slot q) time)','Some (mkOs price dev (pq_slot q) time)','negative prices accepted','C44_pyth_value')
m(O,'pyth_state','if trading then agg else prev','prev','previous price used while trading','C44_pyth')
m(O,'fixed_bank','let* _ := guard (bk_group b =? group) in','','bank of another group','C68_fixed',['C68'])
m(O,'fixed_perp_and_oracle','(pm_group m =? group) && (pm_index m =? index)','(pm_group m =? group)','another market','C68_perp',['C68'])
m(O,'fixed_oo','let* _ := guard (a_key a =? key) in','','another open orders account','C68',['C68'])
m(O,'scan_banks','negb (existsb (Z.eqb (bk_token b)) seen) &&','','duplicate banks accepted','C68')
m(O,'scanned_two','if swap then Some (b2, p2, Some (b1, p1)) else','','banks swapped','C68_two',['C68_two'])
m(O,'scan_infos','if fallback =? NO_KEY then None else find_key tail fallback','find_key tail fallback','unset fallback looked up','C68/C44')
U='Auth.v'
m(U,'operational','au_frozen a <? e_now e','au_frozen a <=? e_now e + 100','thaws early','C45_frozen',['C45'])
m(U,'delegate_of','else if au_texpiry a <? e_now e then false','','expired temporary delegates accepted','C45_who',['C45'])
m(U,'touch_ok','| WOwner => (au_owner a =? c_signer c) && signed','| WOwner => owner_or_delegate e a (c_signer c) && signed','delegates do owner-only things','C45_owner_only',['C45_owner_only'])
m(U,'edit','let* _ := guard (x <? e_now e + WEEK) in','','temporary delegates without limit','C45')
m(U,'set_freeze','if freeze then e_now e + WEEK else 0','0','freezing does nothing','C45_frozen',['C45_frozen'])
m(U,'withdraw_ix','(tk_key target =? ata (au_owner a)) && (tk_owner target =? au_owner a) && negb (w_active r)','(tk_owner target =? au_owner a) && negb (w_active r)','delegate withdraws to any account of the owner','C45_delegate_withdraw',['C45_delegate_w'])
m(U,'withdraw_ix','&& negb (w_active r)','','delegate withdraws part of a position','C45_delegate_withdraw',['C45_delegate_w'])
m(U,'force_withdraw_ix','let* _ := guard forced in','','forced without the bank setting','C45_force',['C45_force'])
json.dump(M,open('/tmp/mutations2.json','w'),indent=1)
print(len(M))
