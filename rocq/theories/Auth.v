(** Who may act on a mango account: owner, delegates, freezing, and delegated
    withdrawals.  Models src/state/mango_account.rs:355-375, the account constraints
    of all instructions (AuthTable.v), account_create.rs, account_edit.rs,
    account_toggle_freeze.rs, account_close.rs, token_withdraw.rs and
    token_force_withdraw.rs.
    Simplifications: public keys are integers; the address of a mango account is
    derived from group, owner and account number (accounts_ix/account_create.rs:13-20), here
    the pair (owner, number) for one group; [None] is a failing instruction, which
    changes nothing; everything else an instruction checks is left out, so the code
    accepts fewer calls than [step]. *)
From Coq Require Import List ZArith Lia Bool.
From Verif Require Import Fixed Interest Bank GateTable AuthTable.
Import ListNotations.
Open Scope Z_scope.

Definition akey := (Z * Z)%type.
Definition akey_eqb (x y : akey) : bool := (fst x =? fst y) && (snd x =? snd y).
(** mango_account.rs:316-340: the fields used here *)
Record auth := mkAuth { au_owner : Z; au_delegate : Z; au_tdelegate : Z; au_texpiry : Z; au_frozen : Z }.
Definition accts := akey -> option auth.
Definition put_acct (st : accts) (k : akey) (a : option auth) : accts := fun x => if akey_eqb x k then a else st x.
(** clock, signers of the transaction, admin of the group *)
Record tenv := mkTenv { e_now : Z; e_signers : list Z; e_admin : Z }.

(** mango_account.rs:355-358 *)
Definition operational (e : tenv) (a : auth) : bool := au_frozen a <? e_now e.
(** mango_account.rs:364-375 *)
Definition delegate_of (e : tenv) (a : auth) (s : Z) : bool :=
  if au_delegate a =? s then true
  else if au_texpiry a <? e_now e then false
  else au_tdelegate a =? s.
(** mango_account.rs:360-362 *)
Definition owner_or_delegate (e : tenv) (a : auth) (s : Z) : bool := (au_owner a =? s) || delegate_of e a s.
Definition signed (e : tenv) (s : Z) : bool := existsb (Z.eqb s) (e_signers e).

(** an instruction: [c_signer] is the account passed as owner, authority, liqor_owner or
    settler_owner (all declared [Signer]), or as admin *)
Inductive arg :=
| ANone
| AEdit (name : bool) (delegate temporary expiry : option Z)
| AFreeze (freeze : bool).
Record call := mkCall { c_ix : ix; c_key : role -> list akey; c_signer : Z; c_arg : arg }.

(** the constraints of the accounts structs *)
Definition touch_ok (e : tenv) (st : accts) (c : call) (t : touch) (k : akey) : bool :=
  match t_who t, st k with
  | WNew, None => (fst k =? c_signer c) && signed e (c_signer c)
  | WNew, Some _ => false
  | _, None => false
  | w, Some a =>
      (if t_oper t then operational e a else true) &&
      match w with
      | WOwner => (au_owner a =? c_signer c) && signed e (c_signer c)
      | WOwnerOrDelegate => owner_or_delegate e a (c_signer c) && signed e (c_signer c)
      | WAdmin => (c_signer c =? e_admin e) && signed e (c_signer c)
      | _ => true
      end
  end.
Definition role_ok (e : tenv) (st : accts) (c : call) (t : touch) : bool :=
  forallb (touch_ok e st c t) (c_key c (t_role t)) &&
  match t_role t with RRemaining => true | r => Nat.eqb (length (c_key c r)) 1 end.

Definition WEEK : Z := 7 * 24 * 60 * 60.
(** account_edit.rs:9-48 *)
Definition edit (e : tenv) (a : auth) (name : bool) (delegate temporary expiry : option Z) : option auth :=
  let* _ := guard (name || match delegate with Some _ => true | None => false end) in
  let d := match delegate with Some d => d | None => au_delegate a end in
  match temporary, expiry with
  | Some t, Some x =>
      let* _ := guard (x <? e_now e + WEEK) in
      Some (mkAuth (au_owner a) d t x (au_frozen a))
  | None, None => Some (mkAuth (au_owner a) d (au_tdelegate a) (au_texpiry a) (au_frozen a))
  | _, _ => None
  end.
(** account_toggle_freeze.rs:8-18 *)
Definition set_freeze (e : tenv) (a : auth) (freeze : bool) : auth :=
  mkAuth (au_owner a) (au_delegate a) (au_tdelegate a) (au_texpiry a) (if freeze then e_now e + WEEK else 0).
(** account_create.rs:34-41 (a new account is zeroed) *)
Definition new_auth (k : akey) : auth := mkAuth (fst k) 0 0 0 0.

(** what happens to these fields: no other instruction writes them *)
Definition effect (e : tenv) (st : accts) (c : call) : option accts :=
  match c_key c RAccount with
  | [k] =>
      match c_ix c, c_arg c with
      | Ix_account_create, _ | Ix_account_create_v2, _ => Some (put_acct st k (Some (new_auth k)))
      | Ix_account_edit, AEdit n d t x =>
          let* a := st k in
          let* a' := edit e a n d t x in
          Some (put_acct st k (Some a'))
      | Ix_account_edit, _ => None
      | Ix_account_toggle_freeze, AFreeze f => let* a := st k in Some (put_acct st k (Some (set_freeze e a f)))
      | Ix_account_toggle_freeze, _ => None
      | Ix_account_close, _ => Some (put_acct st k None)
      | _, _ => Some st
      end
  | _ => Some st
  end.
Definition step (e : tenv) (st : accts) (c : call) : option accts :=
  let* _ := guard (negb (always_fails (c_ix c))) in
  let* _ := guard (forallb (role_ok e st c) (touched (c_ix c))) in
  effect e st c.

(** ** withdrawals *)
Record tokacc := mkTok { tk_key : Z; tk_owner : Z }.   (* an SPL token account: address and owner *)
(** token_withdraw.rs:16-229 and accounts_ix/token_withdraw.rs: [ata] is the associated token
    address of an owner for the mint of the vault; health and net deposits are left
    out (see LiqState.v); result: bank, position, outcome and the tokens paid out to
    [target] *)
Definition withdraw_ix (e : tenv) (a : auth) (signer : Z) (target : tokacc) (ata : Z -> Z)
  (b : bank) (p : tpos) (amount : Z) (allow_borrow : bool) (vault : Z) (oracle : fx) (oracle_ok : bool)
  : option (bank * tpos * wres * Z) :=
  let* _ := guard (operational e a && owner_or_delegate e a signer && signed e signer) in
  let* (b', p', r, paid) := token_withdraw b p amount allow_borrow (e_now e) vault oracle oracle_ok in
  if (amount =? U64_MAX) && negb allow_borrow && (native b p <? 0) then Some (b', p', r, paid)   (* :59 returns early *)
  else
    let* _ := (if delegate_of e a signer
               then guard ((tk_key target =? ata (au_owner a)) && (tk_owner target =? au_owner a) && negb (w_active r))
               else Some tt) in
    Some (b', p', r, paid).
(** token_force_withdraw.rs:11-100 and accounts_ix/token_force_withdraw.rs: nobody has to sign; the token
    account paid, its owner and the amount *)
Definition force_withdraw_ix (e : tenv) (a : auth) (owner_ata alternate : tokacc) (ata : Z -> Z) (forced : bool)
  (b : bank) (p : tpos) (vault : Z) : option (bank * tpos * bool * tokacc * Z) :=
  let* _ := guard (operational e a) in
  let* _ := guard ((tk_key owner_ata =? ata (au_owner a)) && (tk_owner alternate =? au_owner a)) in
  let* _ := guard forced in
  let target := if tk_owner owner_ata =? au_owner a then owner_ata else alternate in
  let* _ := guard (0 <=? native b p) in
  let amount := to_int (native b p) in
  let* (b', p', act) := withdraw_without_fee b p (of_int amount) (e_now e) in
  let* _ := guard (amount <=? vault) in
  let* _ := guard (enforce_max_utilization b' fone) in
  Some (b', p', act, target, amount).
