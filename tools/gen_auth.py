#!/usr/bin/env python3
"""Generate rocq/theories/AuthTable.v: the mango accounts each instruction of lib.rs uses, whether it
requires them to be operational, and whose signature it requires for them."""
import re,glob
R='/repo/programs/mango-v4/src/'
s=open(R+'lib.rs').read()
structs={}
for f in sorted(glob.glob(R+'accounts_ix/*.rs')):
    t=open(f).read()
    for m in re.finditer(r'pub struct (\w+)(?:<.*?>)? \{(.*?)\n\}',t,re.S):
        line=t[:m.start()].count('\n')+1
        structs[m.group(1)]=(m.group(2),f[len(R):],line)
code={}
for f in sorted(glob.glob(R+'instructions/*.rs')):
    t=re.sub(r'//[^\n]*','',open(f).read())
    for m in re.finditer(r'\b([A-Z]\w+)\b',t): code.setdefault(m.group(1),set()).add(f)
def fields(body):
    for m in re.finditer(r'((?:#\[account\((?:[^()]|\((?:[^()]|\([^()]*\))*\))*\)\]\s*)?)pub (\w+): ([^\n]*),',body):
        yield re.sub(r'\s+',' ',re.sub(r'//[^\n]*','',m.group(1))), m.group(2), m.group(3)
ROLE={'account':'RAccount','dao_account':'RDao','liqor':'RLiqor','liqee':'RLiqee','account_a':'RAccountA','account_b':'RAccountB','settler':'RSettler'}
rows=[]
for part in s.split('\n    pub fn ')[1:]:
    n=re.match(r'\w+',part).group(0)
    st=re.findall(r"\b[A-Z]\w+",re.search(r'Context<(.*?)>\s*[,)]',part,re.S).group(1))[-1]
    body,f,line=structs[st]
    for nested in re.findall(r'pub v1: (\w+)',body): body=body+structs[nested][0]
    fs=list(fields(body)); signers={x for _,x,t in fs if 'Signer' in t}
    mod=part[:part.index('\n    }')]
    noop=re.search(r'\{\s*Ok\(\(\)\)\s*$',mod) is not None
    fails=re.search(r'->\s*Result<\(\)>\s*\{\s*Err\(error_msg!',mod) is not None
    files=[]
    for m in re.finditer(r'instructions::(\w+)',mod): 
        for g in glob.glob(R+'instructions/*.rs'):
            if re.search(r'pub fn %s\b'%m.group(1),open(g).read()): files.append(g)
    text='\n'.join(open(g).read() for g in files)
    out=[]
    for attr,name,ty in fs:
        if 'MangoAccountFixed' not in ty: continue
        oper=re.search(r'constraint = %s\.load\(\)\?\.is_operational'%name,attr) is not None
        if 'init,' in attr: who='WNew'
        elif 'has_one = owner' in attr and 'owner' in signers: who='WOwner'
        elif re.search(r'is_owner_or_delegate\(',attr): who='WOwnerOrDelegate'
        elif re.search(r'\b%s\s*\.fixed\s*\.is_owner_or_delegate\('%name,text): who='WOwnerOrDelegate'
        elif st=='AccountToggleFreeze': who='WAdmin'
        else: who='WAnyone'
        out.append((ROLE[name],oper,who))
    if n=='perp_consume_events': out.append(('RRemaining',False,'WAnyone'))
    rows.append((n,f,line,out,noop,fails))
o='''(** Generated by tools/gen_auth.py from src/lib.rs, src/accounts_ix/*.rs and
    src/instructions/*.rs.  For each of the 103 instructions: the mango accounts it
    takes, whether it requires them to be operational ([is_operational] constraint),
    and whose signature it requires: the owner's ([has_one = owner]), the owner's or a
    delegate's ([is_owner_or_delegate], in the accounts struct or at the beginning of the
    instruction), the group admin's, or nobody's.  perp_consume_events takes mango
    accounts as remaining accounts (perp_consume_events.rs:56). *)
From Coq Require Import List ZArith.
From Verif Require Import GateTable.
Import ListNotations.

Inductive role := RAccount | RDao | RLiqor | RLiqee | RAccountA | RAccountB | RSettler | RRemaining.
Inductive who := WNew | WOwner | WOwnerOrDelegate | WAdmin | WAnyone.
Record touch := mkTouch { t_role : role; t_oper : bool; t_who : who }.

Definition touched (i : ix) : list touch :=
  match i with
'''
for n,f,line,out,noop,fails in rows:
    if not out: continue
    o+='  | Ix_%s => [%s]   (* %s:%d%s *)\n'%(n,'; '.join('mkTouch %s %s %s'%(r,'true' if op else 'false',w) for r,op,w in out),f,line,'; does nothing' if noop else '; always fails' if fails else '')
o+='  | _ => []\n  end.\n'
o+='''(** instructions whose body is empty in lib.rs *)
Definition does_nothing (i : ix) : bool :=
  match i with
  | %s => true
  | _ => false
  end.
'''%(' | '.join('Ix_'+r[0] for r in rows if r[4]))
o+='''(** instructions that only return an error in lib.rs *)
Definition always_fails (i : ix) : bool :=
  match i with
  | %s => true
  | _ => false
  end.
'''%(' | '.join('Ix_'+r[0] for r in rows if r[5]))
open('/verif/rocq/theories/AuthTable.v','w').write(o)
