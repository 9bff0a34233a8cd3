"""Round 8 (V...): FeeSystem, AccountLife."""
import json
M=[]
def m(f,d,old,new,edit,claim,expect):
    M.append(dict(id='V%03d'%(len(M)+1),file=f,**{'def':d},old=old,new=new,edit=edit,claim=claim,expect=expect))
S='FeeSystem.v'; X=['C100']
m(S,'admin_perp_withdraw_fees','to_int (pf_settled m) - pf_wd m in','to_int (pf_settled m) in','already withdrawn fees paid again','C100',X)
m(S,'admin_perp_withdraw_fees','to_int (pf_settled m) - pf_wd m in','to_int (pf_settled m) - pf_wd m + 1 in','one token too much (ceil)','C100',X)
m(S,'admin_perp_withdraw_fees','Z.min fees vault in','fees in','vault not looked at','C100',X)
m(S,'admin_perp_withdraw_fees','Z.min fees vault in','Z.max fees vault in','max for min','C100',X)
m(S,'admin_perp_withdraw_fees','Z.min fees vault in','vault in','the whole vault is paid','C100',X)
m(S,'admin_perp_withdraw_fees','(pf_wd m + amount)','(pf_wd m)','withdrawal not recorded','C100',X)
m(S,'admin_perp_withdraw_fees','(pf_wd m + amount)','(pf_wd m + fees)','recorded as if all was paid','C100',X)
m(S,'admin_perp_withdraw_fees','mkPF (pf_settled m) (pf_wd m + amount)','mkPF (pf_settled m - of_int amount) (pf_wd m + amount)','settled fees reduced too','C100',X)
m(S,'admin_perp_withdraw_fees','guard (0 <=? fees)','guard (0 <? fees)','fails when nothing is left','C100',X)
m(S,'fstep','(mkPF (pf_settled m + x) (pf_wd m))','(mkPF (pf_settled m) (pf_wd m))','payment not recorded','C100',X)
m(S,'fstep','(mkPF (pf_settled m + x) (pf_wd m))','(mkPF (pf_settled m + 2 * x) (pf_wd m))','payment recorded twice','C100',X)
m(S,'fstep','(mkPF (pf_settled m + x) (pf_wd m))','(mkPF (pf_settled m + x) 0)','withdrawals forgotten at a payment','C100',X)
m(S,'fstep','let* (b\', p\', _) := withdraw_without_fee b p x now in','let* (b\', p\', _) := withdraw_without_fee b p (x / 2) now in','half of the fee taken from the payer','C100',X)
m(S,'fstep','let* (b\', p\', _) := withdraw_without_fee b p x now in','let* (b\', p\', _) := deposit b p x now in','payer credited','C100',X)
m(S,'fstep','(fs_vault s - of_int amount)','(fs_vault s - of_int vault)','more leaves the vault than is recorded','C100',X)
m(S,'fstep','let* _ := guard (0 <? x) in','','negative payments (unpaid fees) accepted','C100',X)
m(S,'pf_new','mkPF 0 0','mkPF 0 1','a new market starts with a withdrawal','C100',X)
S='AccountLife.v'; X=['C101']
m(S,'account_close','guard (testing || negb force)','guard (testing || force || negb force)','force close everywhere','C101',X)
m(S,'account_close','let* _ := guard (negb liq) in','','closed while being liquidated','C101',X)
m(S,'account_close','let* _ := guard (forallb (fun p => negb (t_active p)) (toks a)) in','','token positions not checked','C101',X)
m(S,'account_close','(fun p => negb (t_active p))','(fun p => negb (t_active p) || (t_uses p =? 0))','unused token positions accepted','C101',X)
m(S,'account_close','let* _ := guard (forallb (fun p => negb (s_active p)) (sers a)) in','','spot orders not checked','C101',X)
m(S,'account_close','guard (forallb (fun p => negb (p_active p)) (perps a))','Some tt','perp positions not checked','C101',X)
m(S,'account_close','(fun p => negb (p_active p))','(fun p => p_active p)','condition inverted','C101',X)
m(S,'account_close','(fun p => negb (p_active p)) (perps a)','(fun p => negb (p_active p)) (firstn 1 (perps a))','only the first perp position checked','C101',X)
X=['C102']
m(S,'sequence_check','guard (expected =? seq)','guard (expected <=? seq)','older numbers accepted','C102',X)
m(S,'sequence_check','guard (expected =? seq)','guard (seq <=? expected)','newer numbers accepted','C102',X)
m(S,'sequence_check','(seq + 1) mod 256','seq mod 256','number does not grow','C102',X)
m(S,'sequence_check','(seq + 1) mod 256','(seq + 2) mod 256','grows by two','C102',X)
m(S,'sequence_check','(seq + 1) mod 256','Z.min (seq + 1) 255','saturating instead of wrapping','C102',X)
m(S,'sequence_check','(seq + 1) mod 256','(seq + 1) mod 255','wraps one too early','C102',X)
m(S,'qstep','let* q := sequence_check (qs_seq s k) n in','let* q := sequence_check n n in','expected number not compared','C102',X)
S='AuthTable.v'
m(S,'touched','| Ix_sequence_check => [mkTouch RAccount true WOwner]','| Ix_sequence_check => [mkTouch RAccount true WAnyone]','anybody can advance the number','C102',X)
m(S,'touched','| Ix_sequence_check => [mkTouch RAccount true WOwner]','| Ix_sequence_check => [mkTouch RAccount true WOwnerOrDelegate]','delegates can advance the number','C102',X)
m(S,'touched','| Ix_sequence_check => [mkTouch RAccount true WOwner]','| Ix_sequence_check => [mkTouch RAccount false WOwner]','also on frozen accounts','C102',X)
S='PerpSystem.v'; X=['C101']
m(S,'step','(p_bids p =? 0) && (p_asks p =? 0)\n','(p_bids p =? 0)\n','position with resting asks deactivated','C101',X)
bad=0
for x in M:
    s=open('/verif/rocq/theories/'+x['file']).read()
    if s.count(x['old'])!=1: print('COUNT',s.count(x['old']),x['id'],x['def'],x['old'][:60]); bad+=1
json.dump(M,open('/tmp/mutations8.json','w'),indent=1); print(len(M),bad)
