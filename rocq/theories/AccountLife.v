(** Closing an account and its sequence number: instructions/account_close.rs, instructions/sequence_check.rs. *)
From Coq Require Import List ZArith Lia Bool.
From Verif Require Import OrderTree AccountSlots Fixed Interest Bank GateTable AuthTable Auth.
Import ListNotations.
Open Scope Z_scope.

(** account_close.rs:9-26, without the constraints of the accounts struct ([Auth.step]); [liq]: being_liquidated *)
Definition account_close (testing force liq : bool) (a : acct) : option unit :=
  let* _ := guard (testing || negb force) in
  if force then Some tt
  else
    let* _ := guard (negb liq) in
    let* _ := guard (forallb (fun p => negb (t_active p)) (toks a)) in
    let* _ := guard (forallb (fun p => negb (s_active p)) (sers a)) in
    guard (forallb (fun p => negb (p_active p)) (perps a)).

(** sequence_check.rs:7-18: [wrapping_add] on a u8 *)
Definition sequence_check (seq expected : Z) : option Z :=
  let* _ := guard (expected =? seq) in Some ((seq + 1) mod 256).

(** accounts with their sequence numbers (mango_account.rs:126); written by account creation (a zeroed account) and by sequence_check
    only; [n]: the argument of sequence_check *)
Record qstate := mkQS { qs_auth : accts; qs_seq : akey -> Z }.
Definition put_seq (q : akey -> Z) (k : akey) (n : Z) : akey -> Z := fun x => if akey_eqb x k then n else q x.
Definition qstep (s : qstate) (e : tenv) (c : call) (n : Z) : option qstate :=
  let* st := Auth.step e (qs_auth s) c in
  match c_ix c, c_key c RAccount with
  | (Ix_account_create | Ix_account_create_v2), [k] => Some (mkQS st (put_seq (qs_seq s) k 0))
  | Ix_sequence_check, [k] => let* q := sequence_check (qs_seq s k) n in Some (mkQS st (put_seq (qs_seq s) k q))
  | _, _ => Some (mkQS st (qs_seq s))
  end.
Definition qcall := (tenv * call * Z)%type.
Fixpoint qrun (s : qstate) (l : list qcall) : option qstate :=
  match l with [] => Some s | (e, c, n) :: r => let* s' := qstep s e c n in qrun s' r end.
