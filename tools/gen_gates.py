#!/usr/bin/env python3
"""Generate rocq/theories/GateTable.v: the instructions of lib.rs and the ix gates they check."""
import re,glob
R='/repo/programs/mango-v4/src/'
s=open(R+'lib.rs').read(); g=open(R+'state/group.rs').read()
enum=dict((a,int(b)) for a,b in re.findall(r'^\s+(\w+) = (\d+),',g[g.index('pub enum IxGate'):],re.M))
src={}
for f in glob.glob(R+'accounts_ix/*.rs'):
    t=open(f).read()
    for m in re.finditer(r'pub struct (\w+)(?:<.*?>)? \{(.*?)\n\}',t,re.S):
        src[m.group(1)]=(re.findall(r'IxGate::(\w+)',m.group(2)),m.group(2))
# the gate named after the instruction, where the names differ
own={'token_update_index_and_rate_resilient':'TokenUpdateIndexAndRate','account_create_v2':'AccountCreate','account_expand_v2':'AccountExpand',
'stub_oracle_set_test':'StubOracleSet','token_deposit_into_existing':'TokenDeposit','flash_loan_begin':'FlashLoan','flash_loan_swap_begin':'FlashLoan',
'health_region_begin':'HealthRegion','serum3_cancel_order_by_client_order_id':'Serum3CancelOrder','serum3_settle_funds_v2':'Serum3SettleFunds',
'liq_token_with_token':'TokenLiqWithToken','liq_token_bankruptcy':'TokenLiqBankruptcy','perp_place_order_v2':'PerpPlaceOrder','perp_place_order_pegged':'PerpPlaceOrder',
'perp_place_order_pegged_v2':'PerpPlaceOrder','perp_liq_negative_pnl_or_bankruptcy_v2':'PerpLiqNegativePnlOrBankruptcy','token_conditional_swap_create_v2':'TokenConditionalSwapCreate',
'token_conditional_swap_trigger_v2':'TokenConditionalSwapTrigger','openbook_v2_place_taker_order':'OpenbookV2PlaceTakeOrder','openbook_v2_cancel_all_orders':'OpenbookV2CancelOrder'}
# checked in the instruction body: flash_loan.rs:51 (both begins call it); lib.rs token_conditional_swap_create calls _v2
body={'flash_loan_begin':['FlashLoan'],'flash_loan_swap_begin':['FlashLoan'],'token_conditional_swap_create':['TokenConditionalSwapCreate']}
rows=[]
for part in s.split('\n    pub fn ')[1:]:
    n=re.match(r'\w+',part).group(0)
    st=re.findall(r"\b[A-Z]\w+",re.search(r'Context<(.*?)>\s*[,)]',part,re.S).group(1))[-1]
    gs=re.findall(r'IxGate::(\w+)',part)+src[st][0]+body.get(n,[])
    for nested in re.findall(r'pub v1: (\w+)',src[st][1]): gs+=src[nested][0]
    camel=''.join(w.capitalize() for w in n.split('_'))
    o=own.get(n,camel if camel in enum else None)
    rows.append((n,[enum[x] for x in gs],enum[o] if o else None,gs))
out='''(** Generated by tools/gen_gates.py from src/lib.rs, src/accounts_ix/*.rs and
    src/state/group.rs:154-250.  All 103 instructions of the program. *)
From Coq Require Import List ZArith.
Import ListNotations.
Open Scope Z_scope.

(** lib.rs: [pub mod mango_v4] *)
Inductive ix :=
'''
out+=''.join('| Ix_%s\n'%r[0] for r in rows).rstrip()+'.\n\n'
out+='''(** The gates an instruction checks before doing anything: the constraints in its
    accounts struct (accounts_ix/), flash_loan.rs:51 and lib.rs:1433, :1485, :1537.  The two
    serum3_place_order instructions are treated separately (serum3_place_order.rs:132-150). *)
Definition gates_checked (i : ix) : list Z :=
  match i with
'''
out+=''.join('  | Ix_%s => [%s]\n'%(r[0],'; '.join(map(str,r[1]))) for r in rows if r[1])+'  | _ => []\n  end.\n\n'
out+='''(** The bit of [IxGate] (group.rs:154-250) named after the instruction, if there is one *)
Definition own_gate (i : ix) : option Z :=
  match i with
'''
out+=''.join('  | Ix_%s => Some %d\n'%(r[0],r[2]) for r in rows if r[2] is not None)+'  | _ => None\n  end.\n'
open('/verif/rocq/theories/GateTable.v','w').write(out)
for r in rows:
    if r[2] is not None and r[2] not in r[1] and len(r[1])==0: print('unchecked',r[0],r[2])
    elif r[2] is not None and r[1]!=[r[2]]: print('mismatch',r)
