"""Round 10 (X...): Registry."""
import json
M=[]
def m(d,old,new,edit,claim='C104'):
    M.append(dict(id='X%03d'%(len(M)+1),file='Registry.v',**{'def':d},old=old,new=new,edit=edit,claim=claim,expect=['C104']))
m('token_register','free (bank_at (r_banks s) i 0) && free (info_of (r_mints s) m)','free (info_of (r_mints s) m)','address of the bank without the index')
m('token_register','free (bank_at (r_banks s) i 0) && free (info_of (r_mints s) m)','free (bank_at (r_banks s) i 0)','address of the mint info without the mint')
m('token_register','mkMI m i [(i, 0)] :: r_mints s','mkMI m i [] :: r_mints s','bank not listed in the mint info')
m('token_register','mkRB i 0 m :: r_banks s','mkRB i 1 m :: r_banks s','first bank number 1')
m('token_add_bank','let* _ := guard testing in\n  let* b := bank_at','let* b := bank_at','testing not required for added banks','(none stated)')
m('token_add_bank','let* _ := guard (rb_mint b =? m) in','','mint of the existing bank not checked','(implied by the other checks)')
m('token_add_bank','let* _ := guard (mi_index x =? i) in','','index of the mint info not checked','(implied by the other checks)')
m('token_add_bank','(slot <? 6) && (n =? slot)','(slot <? 6)','any number for the new bank')
m('token_add_bank','(slot <? 6) && (n =? slot)','(slot <=? 6) && (n =? slot)','seven banks')
m('token_add_bank','mi_banks y ++ [(i, n)]','mi_banks y','added bank not listed')
m('token_add_bank','mi_banks y ++ [(i, n)]','[(i, n)]','list of banks overwritten')
m('token_add_bank','mkRB i n (rb_mint b) :: r_banks s','mkRB n i (rb_mint b) :: r_banks s','index and number swapped')
m('token_deregister','let* _ := guard testing in\n  let* x := info_of','let* x := info_of','tokens removed outside testing')
m('token_deregister','filter (fun b => negb (closed b)) (r_banks s)','r_banks s','banks not closed')
m('token_deregister','filter (fun y => negb (mi_mint y =? m)) (r_mints s)','r_mints s','mint info not closed')
m('token_deregister','filter (fun b => negb (closed b)) (r_banks s)','filter (fun b => negb (at_key (mi_index x) 0 b)) (r_banks s)','only the first bank closed')
m('serum3_register_market','(pc ext =? rb_mint q) && (coin ext =? rb_mint b)','(pc ext =? rb_mint q)','base mint not checked')
m('serum3_register_market','(pc ext =? rb_mint q) && (coin ext =? rb_mint b)','(coin ext =? rb_mint b)','quote mint not checked')
m('serum3_register_market','(pc ext =? rb_mint q) && (coin ext =? rb_mint b)','(pc ext =? rb_mint b) && (coin ext =? rb_mint q)','mints swapped')
m('serum3_register_market','(rb_index b) (rb_index q)','(rb_index q) (rb_index b)','indexes swapped')
m('serum3_register_market','let* _ := guard (negb fast || (band =? if c_tier then 19 else 1)) in','','band of fast listings free')
m('serum3_register_market','if c_tier then 19 else 1','19','wide band for every fast listing')
m('serum3_register_market','&& negb (existsb (Z.eqb i) (r_reserved s))','','index not reserved')
m('serum3_register_market','guard (free (market_at (r_markets s) ext) && negb','guard (negb','external market registered twice')
m('serum3_register_market','(i :: r_reserved s)','(r_reserved s)','reservation not recorded')
m('serum3_deregister_market','let* _ := guard testing in\n  let* x := market_at','let* x := market_at','markets removed outside testing')
m('serum3_deregister_market','(sm_index x =? i) && existsb','existsb','another reservation released')
m('serum3_deregister_market','(filter (fun j => negb (j =? i)) (r_reserved s))','(r_reserved s)','reservation kept')
m('perp_create_market','let* _ := guard (free (perp_at (r_perps s) i)) in','','perp index used twice')
m('perp_close_market','let* _ := guard testing in\n  let* _ := perp_at','let* _ := perp_at','perp markets closed outside testing')
for x in M:
    s=open('/verif/rocq/theories/'+x['file']).read()
    if s.count(x['old'])!=1: print(x['id'],s.count(x['old']))
json.dump(M,open('/tmp/mutations10.json','w'))
