import json
M=[]
def m(file,df,old,new,edit,claim,expect=[]):
    M.append(dict(id='M%03d'%(len(M)+1),file=file,**{'def':df},old=old,new=new,edit=edit,claim=claim,expect=expect))
T='OrderTree.v'
m(T,'expiry','if l_tif l =? 0 then u64_max else','if l_tif l =? 0 then 0 else','an order without time in force gets expiry 0','C04: only expired orders are evicted',['C04'])
m(T,'inner_expiry','Z.min (i_e0 i) (i_e1 i)','i_e0 i','inner node expiry ignores the right child','C04: eviction finds the earliest expiry',['C04'])
m(T,'crit_bit','(Z.shiftl 1 (127 - plen))','(Z.shiftl 1 (126 - plen))','critical bit off by one','C01: ordered map',['C01'])
m(T,'slot_remove','(S (free_len a)) h\n','(free_len a) h\n','removed slot not counted in the free list','C03: no slot leak',['C03'])
m(T,'slot_insert','Some (mkArena (bump a) fl next (upd (nodes a) h v), inl h)','Some (mkArena (bump a) fl h (upd (nodes a) h v), inl h)','free list head not advanced','C03: no slot is handed out twice',['C03','C01'])
m(T,'update_parents','if child_exp i b =? old then','if child_exp i b <? old then','parent expiry only updated if smaller','C04: expiries kept in the inner nodes are exact',['C04'])
m(T,'insert_loop','if i_plen i <=? shared then','if i_plen i <? shared then','boundary of the common prefix test','C01',['C01'])
m(T,'insert_loop','then mkInner shared (l_key nl) mh lh pexp (expiry nl)','then mkInner shared (l_key nl) lh mh (expiry nl) pexp','children swapped in the new inner node','C01/C02: keys sorted',['C01','C02'])
m(T,'insert_loop','if expiry nl <? pexp\n                    then update_parents a3 stack pexp (expiry nl)\n                    else Some a3','if false\n                    then update_parents a3 stack pexp (expiry nl)\n                    else Some a3','parents not told about an earlier expiry','C04',['C04'])
m(T,'insert_loop','Some (a4, mkRoot (maybe_node r) (S (leaf_count r)),','Some (a4, mkRoot (maybe_node r) (leaf_count r),','leaf_count not incremented','C01',['C01'])
m(T,'remove_by_key','update_parents a3 rest (expiry rl) new_exp','Some a3','parents not updated on removal','C04',['C04'])
m(T,'find_worst','leaf_min_max a r (negb bids)','leaf_min_max a r bids','evicts the best instead of the worst order','C05',['C05'])
m(T,'earliest_loop','(child i (i_e1 i <? i_e0 i))','(child i (i_e0 i <? i_e1 i))','walks to the latest expiry','C04',['C04'])
m(T,'remove_one_expired','if exp <? now then','if exp <=? now + 1 then','evicts orders that are not yet expired','C04',['C04'])
m(T,'is_full','(Nat.leb (free_len a) 1)','(Nat.leb (free_len a) 0)','is_full ignores that an insert needs two slots','C03: not full means insert succeeds',['C03_not_full'])
m(T,'set_quantity','q (l_timestamp l) (l_peg_limit l) (l_client_id l))','q 0 (l_peg_limit l) (l_client_id l))','changing the quantity clears the timestamp','C50: a partial fill changes only the quantity',['C01','C50'])
m(T,'iter_loop','leftmost (S (length (nodes a))) a left st (child i (negb left))','leftmost (S (length (nodes a))) a left st (child i left)','iterator walks into the same child again','C02',['C02'])
K='Keys.v'
m(K,'new_node_key','(if sd then not_u64 seq_num else seq_num)','seq_num','bids not sequence inverted','C06: older bids first',['C06_price_time'])
m(K,'oracle_pegged_price_data','as_u64 (as_u64 offset + 2 ^ 63)','as_u64 (as_u64 offset + 2 ^ 62)','wrong bias','C06: pegged offsets sorted',['C06_pegged'])
m(K,'gen_order_id','Some (seq_num + 1, new_node_key','Some (seq_num, new_node_key','sequence number not advanced','C06: ids unique',['C06_ids'])
m(K,'fixed_price_data','if 1 <=? price_lots','if 0 <=? price_lots','zero price accepted','C06: fixed prices at least 1',['C06_fixed'])
B='BookSide.v'
m(B,'is_price_better','if sd then rhs <? lhs else lhs <? rhs','if sd then lhs <? rhs else rhs <? lhs','comparison reversed','C07/C46/C50')
m(B,'oracle_pegged_price','negb (l_peg_limit l =? -1) && is_price_better sd price (l_peg_limit l)','negb (l_peg_limit l =? -1) && is_price_better sd (l_peg_limit l) price','peg limit test reversed','C07: pegged orders beyond their limit are invalid',['C07'])
m(B,'oracle_pegged_price','if (1 <=? price) && (price <? i64_max) then','if (1 <=? price) then','pegged order at i64::MAX not skipped','C07')
m(B,'rank_orders','let better := if sd then k <? l_key fl else l_key fl <? k in','let better := if sd then l_key fl <? k else k <? l_key fl in','worse order first','C07',['C07'])
m(B,'pegged_to_result','mkItem true l price (if is_expired l now then Invalid else st)','mkItem true l price st','expired pegged orders reported valid','C07',['C07'])
m(B,'bs_remove_one_expired','match bs_step sd s\' (ORemoveExpired (negb c) now) with','match bs_step sd s\' (ORemoveExpired c now) with','only one component is searched for expired orders','C04 on the whole side',['C04_remove_one_expired_side'])
m(B,'impact_price_from','if q <=? sum then','if q <? sum then','impact price needs strictly more','C46',['C46_impact'])
m(B,'quantity_at_price','if is_price_better sd limit (it_price i) then 0','if negb (is_price_better sd (it_price i) limit) then 0','orders at the limit price not counted','C46',['C46_quantity_at'])
m(B,'matched_amount_from','Some (sum_amt - extra * it_price i)','Some sum_amt','last order counted in full','C46',['C46_matched_amount'])
E='EventQueue.v'
m(E,'q_push','(q_seq q + 1)%Z (upd','(q_seq q)%Z (upd','sequence number not advanced','C08',['C08'])
m(E,'q_pop','mkQ ((q_head q + 1) mod length (q_buf q))','mkQ (q_head q + 1)','head not wrapped','C08',['C08'])
m(E,'q_full','Nat.eqb (q_count q) (length (q_buf q))','Nat.eqb (q_count q) (length (q_buf q) - 1)','capacity off by one','C08',['C08'])
O='Book.v'
m(O,'match_step','if (m_rem_base st =? 0) || (m_rem_quote st =? 0) then Some (inr st)\n  else','if (m_rem_base st =? 0) then Some (inr st)\n  else','quote limit not tested','C09 (equivalent: max_by_quote is 0 then)')
m(O,'match_step','else if negb (is_price_within_limit sd (it_price i) (x_price x)) then Some (inr st)','else if negb (is_price_within_limit sd (it_price i) (x_price x)) && is_post_only o then Some (inr st)','limit price ignored when taking','C09: fills at or better than the limit',['C09_fill_prices'])
m(O,'match_step','else if is_post_only o || Nat.eqb (m_limit st) 0 then','else if Nat.eqb (m_limit st) 0 then','post-only orders take','C10',['C10_post_only_never_fills'])
m(O,'match_step','(m_change st) (m_delete st) (m_dropped st) (m_q st) (m_limit st) None))','(m_change st) (m_delete st) (m_dropped st) (m_q st) (m_limit st) (m_post st)))','post-only order that would match is posted','C10: never crosses',['C10_post_only_never_crosses'])
m(O,'match_step','let mb := Z.min (Z.min (m_rem_base st) (l_quantity l)) max_by_quote in','let mb := Z.min (m_rem_base st) (l_quantity l) in','quote limit ignored','C09: quote limit',['C09_limits'])
m(O,'match_step','Some (inl (mkM (m_rem_base st - mb) (m_rem_quote st - mq)','Some (inl (mkM (m_rem_base st - mb) (m_rem_quote st)','remaining quote not reduced','C09 limits',['C09_limits'])
m(O,'match_step','(if own then m_dec_quote st + mq else m_dec_quote st)','(m_dec_quote st)','self trades pay taker fees','C12 fees',['C12_fees'])
m(O,'make_fill','(f32_round (if own then 0 else mk_maker_fee (x_market x)))','(f32_round (mk_maker_fee (x_market x)))','self trades pay maker fees','C12: self fills are free',['C12_self_fill'])
m(O,'match_step','| true, AbortTransaction => None','| true, AbortTransaction => Some (inr st)','self trade with AbortTransaction does not abort','C12 behaviour',['C12_behaviour'])
m(O,'match_step','(m_dropped st) q\' (m_limit st - 1) (m_post st)))','(m_dropped st) q\' (m_limit st) (m_post st)))','the limit on fills is not counted down','C09: number of fills is bounded by limit',['C09'])
m(O,'match_step','let out := nq =? 0 in','let out := nq <=? 1 in','an order with one lot left is removed','C09/C50',['C50_opposing'])
m(O,'make_fill','(l_owner l) (l_key l) (l_client_id l)','(x_pk x) (l_key l) (l_client_id l)','fill names the taker as maker','C13',['C13'])
m(O,'apply_fees','let maker_fees := fmul quote_native (mk_maker_fee mk) in','let maker_fees := 0 in','maker fee not accrued','C18',['C18_placing'])
m(O,'new_order','let qty := Z.min (m_rem_base m) (Z.quot (m_rem_quote m) price) in','let qty := m_rem_base m in','posted size ignores the quote limit','C09: total size within the quote limit',['C09'])
m(O,'new_order','match (if qty <=? 0 then None else m_post m) with','match (if qty <? 0 then None else m_post m) with','an empty order can be posted','C11/C13: resting orders are positive',[])
m(O,'post_order','if is_price_better sd price wp then','if true then','a full book evicts a better order','C50 own side: eviction only by a better order',['C50_own'])
m(O,'post_order','let l := mkLeaf sl 0 (o_tif o) id pk qty now (peg_limit o) (o_client o) in','let l := mkLeaf sl 0 (o_tif o) id pk qty now (-1) (o_client o) in','peg limit not stored','C11/C50 posted order is the requested one',['C50_own'])
m(O,'cancel_by_slot','if (l_owner_slot l =? i) && (l_owner l =? pk) then','if (l_owner_slot l =? i) then','owner not checked','C17',[ 'C17'])
m(O,'cancel_by_slot','match remove_perp_order a mkt i (l_quantity l) with','match remove_perp_order a mkt i (s_qty s) with','slot quantity instead of leaf quantity removed','C13/C17',['C17_cancel_effect'])
m(O,'cancel_all','negb (Bool.eqb sd (s_side s)) end','Bool.eqb sd (s_side s) end','side filter reversed','C17 cancel all',['C17_cancel_all'])
P='PerpTypes.v'
m(P,'remove_taker_trade','(p_taker_base p - base) (p_taker_quote p - quote)\n        (p_long','(p_taker_base p - base) (p_taker_quote p)\n        (p_long','taker quote lots not removed','C14',['C14'])
m(P,'adjust_maker_lots','(p_bids p) (p_asks p + base) (p_taker_base p)','(p_bids p + base) (p_asks p) (p_taker_base p)','ask lots added to bids','C13',['C13'])
m(P,'record_trade','(Z.abs nb - Z.abs (p_base p))','Z.abs base','open interest only grows','C15',['C15'])
m(P,'base_quote_change','else (- f_qty f, f_price f * f_qty f)','else (- f_qty f, - f_price f * f_qty f)','ask side quote sign','C18',['C18'])
m(P,'settle_funding','mkPos (p_base p) (p_quote p - fd)','mkPos (p_base p) (p_quote p + fd)','funding sign','C19 (not yet modelled there)')
m(P,'execute_maker','let fees := fmul (Z.abs quote) (f_maker_fee f) in','let fees := fmul quote (f_maker_fee f) in','fee on signed quote','C18',['C18_fill'])
m(P,'execute_maker','if slot_active s (mk_index mk) && ((f_maker_id f =? 0) || (s_id s =? f_maker_id f))','if slot_active s (mk_index mk)','fill applied to whatever order is in the slot','C16',['C16'])
m(P,'execute_maker','(Z.max (s_qty s - Z.abs base) 0) in','(s_qty s) in','slot quantity not reduced by a partial fill','C16 orders stay recorded',['C16_orders_stay'])
m(P,'execute_out','if slot_active s mkt && ((u_id u =? 0) || (s_id s =? u_id u))','if slot_active s mkt','out event clears a reused slot','C16',['C16'])
m(P,'execute_out','(adjust_maker_lots p (u_side u) (- u_qty u))','p','out event does not release the lots','C13',['C13'])
m(P,'remove_perp_order','if (s_market s =? FREE) || negb (s_market s =? mkt) then None','if false then None','no market check','C17 (callers check already)')
m(P,'inside_price_limit','if sd then native <=? fmul (mk_maint_liab_w mk) oracle','if sd then true','no price limit for bids','C11/C50: posted orders inside the price limit',['C10','C11','C50'])
m(P,'slide_limit','chk_i64 (best - 1)','chk_i64 best','bid slides onto the best ask','C10 posted price / C47',['C10'])
m(P,'order_price','Some (oracle_pegged_price_data d)','Some (oracle_pegged_price_data (d + 1))','pegged order posted at another offset','C10_posted_price',['C10','C47'])
S='PerpSystem.v'
m(S,'consume','match execute_taker a mk f with','match Some (a, mk) with','self trade only executes the maker half','C14/C15',['C14','C15'])
m(S,'resize_slots','if Nat.leb (blocked L) n then','if true then','shrinking drops used slots','C13/C51',['C13'])
m(S,'step','| None => Some (mkSys (y_bk y) (y_mk y) (y_q y) (adel (y_accs y) pk))\n                  | Some _ => None','| None => Some (mkSys (y_bk y) (y_mk y) (y_q y) (adel (y_accs y) pk))\n                  | Some _ => Some (mkSys (y_bk y) (y_mk y) (y_q y) (adel (y_accs y) pk))','accounts with an active position can be closed','C15',['C15'])
m('PropPerp.v','reduce_only_max_base_lots','PLACEHOLDER','','','')
M.pop()
json.dump(M,open('/tmp/mutations1.json','w'))
bad=0
for x in M:
    s=open('/verif/rocq/theories/'+x['file']).read(); n=s.count(x['old'])
    if n!=1: print(x['id'],x['def'],n); bad+=1
print(len(M),bad)
