(** The instruction gate.  Models src/instructions/ix_gate_set.rs:6-116,
    src/state/group.rs:147-149 and src/instructions/group_edit.rs:25-45. *)
From Coq Require Import List ZArith Lia Bool.
From Verif Require Import GateTable.
Import ListNotations.
Open Scope Z_scope.

(** group.rs:18-130; public keys are numbers, [Pubkey::default()] is 0 *)
Record group := mkGroup { g_admin : Z; g_security : Z; g_gate : Z }.
(** [x & (1 << i) != 0] on u128 *)
Definition bit (x : Z) (i : nat) : bool := Z.testbit x (Z.of_nat i).
(** group.rs:147-149 *)
Definition is_ix_enabled (g : group) (k : Z) : bool := negb (Z.testbit (g_gate g) k).

(** ix_gate_set.rs:12-18: the loop over 128 bits *)
Definition requires_admin (old new : Z) : bool :=
  existsb (fun i => bit old i && negb (bit new i)) (seq 0 128).
(** ix_gate_set.rs:6-116; [signer] is the signing admin account *)
Definition ix_gate_set (g : group) (signer gate : Z) : option group :=
  if (if requires_admin (g_gate g) gate then g_admin g =? signer
      else (g_admin g =? signer) || (g_security g =? signer))
  then Some (mkGroup (g_admin g) (g_security g) gate) else None.
(** group_edit.rs:27-48, the two admin fields; [has_one = admin] *)
Definition group_edit (g : group) (signer : Z) (admin_opt security_opt : option Z) : option group :=
  if g_admin g =? signer then
    match admin_opt with
    | Some 0 => None
    | _ => Some (mkGroup (match admin_opt with Some a => a | None => g_admin g end)
                         (match security_opt with Some a => a | None => g_security g end) (g_gate g))
    end
  else None.

(** serum3_place_order.rs:132-150: [require_v2] and [receiver_bank_ai.is_writable] *)
Definition serum3_place_gate (g : group) (require_v2 writable : bool) : bool :=
  let v1 := is_ix_enabled g 33 in
  let v2 := is_ix_enabled g 71 in
  if require_v2 || negb v1 || (writable && v2) then v2 && writable else v1.
(** the gate part of an instruction; [writable] only matters for serum3_place_order *)
Definition admitted (g : group) (i : ix) (writable : bool) : bool :=
  forallb (is_ix_enabled g) (gates_checked i) &&
  match i with
  | Ix_serum3_place_order => serum3_place_gate g false writable
  | Ix_serum3_place_order_v2 => serum3_place_gate g true writable
  | _ => true
  end.

(** what can happen to a group's admins and gate *)
Inductive gate_op := GSet (signer gate : Z) | GEdit (signer : Z) (admin_opt security_opt : option Z).
Definition gate_step (g : group) (o : gate_op) : option group :=
  match o with
  | GSet s x => ix_gate_set g s x
  | GEdit s a b => group_edit g s a b
  end.
(** rejected calls change nothing *)
Fixpoint gate_run (g : group) (os : list gate_op) : group :=
  match os with
  | [] => g
  | o :: r => gate_run (match gate_step g o with Some g' => g' | None => g end) r
  end.
