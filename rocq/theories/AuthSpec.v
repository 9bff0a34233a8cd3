(** Vocabulary for the statements about who may act on an account. *)
From Coq Require Import List ZArith.
From Verif Require Import GateTable AuthTable Auth.
Import ListNotations.
Open Scope Z_scope.

(** the executed instructions of a history, oldest first *)
Definition hist := list (tenv * call).
Inductive runs : accts -> hist -> accts -> Prop :=
| runs_nil st : runs st [] st
| runs_cons st e c st1 l st' : step e st c = Some st1 -> runs st1 l st' -> runs st ((e, c) :: l) st'.
Definition no_accts : accts := fun _ => None.
(** the clock does not go back *)
Definition clock_ok (l : hist) : Prop :=
  forall l1 e1 c1 l2 e2 c2 l3, l = l1 ++ (e1, c1) :: l2 ++ (e2, c2) :: l3 -> e_now e1 <= e_now e2.
(** the instruction uses the account in this role *)
Definition uses (c : call) (k : akey) (r : role) : Prop := In r (map t_role (touched (c_ix c))) /\ In k (c_key c r).

(** the parts of the protocol that work without anyone's consent: being liquidated,
    settled, triggered or force-closed, cranks, deposits by others, and health checks *)
Definition public_use (i : ix) (r : role) : Prop :=
  r = RLiqee \/ r = RAccountA \/ r = RAccountB \/ r = RDao \/ r = RRemaining \/
  In i [Ix_account_size_migration; Ix_health_check; Ix_health_region_begin; Ix_health_region_end; Ix_token_deposit_into_existing;
        Ix_serum3_liq_force_cancel_orders; Ix_perp_liq_force_cancel_orders; Ix_token_force_withdraw; Ix_perp_settle_fees;
        Ix_token_charge_collateral_fees; Ix_compute_account_data] \/
  does_nothing i = true.
(** grants made by the owner of [k]: permanent and temporary *)
Definition grants (c : call) (k : akey) (s : Z) : Prop :=
  c_ix c = Ix_account_edit /\ c_key c RAccount = [k] /\ exists n t x, c_arg c = AEdit n (Some s) t x.
Definition grants_until (c : call) (k : akey) (s x : Z) : Prop :=
  c_ix c = Ix_account_edit /\ c_key c RAccount = [k] /\ exists n d, c_arg c = AEdit n d (Some s) (Some x).
Definition freezes (c : call) (k : akey) (f : bool) : Prop :=
  c_ix c = Ix_account_toggle_freeze /\ c_key c RAccount = [k] /\ c_arg c = AFreeze f.
(** the last permanent delegate set by the owner of [k], who signed for it, was [s] *)
Definition last_grant (l : hist) (k : akey) (s : Z) : Prop :=
  exists l1 e c l2, l = l1 ++ (e, c) :: l2 /\ grants c k s /\ In (fst k) (e_signers e) /\
    forall e' c' s', In (e', c') l2 -> ~ grants c' k s'.
(** the last temporary delegate set by the owner was [s], until [x], less than a week ahead *)
Definition last_grant_until (l : hist) (k : akey) (s x : Z) : Prop :=
  exists l1 e c l2, l = l1 ++ (e, c) :: l2 /\ grants_until c k s x /\ In (fst k) (e_signers e) /\ x < e_now e + 604800 /\
    forall e' c' s' x', In (e', c') l2 -> ~ grants_until c' k s' x'.
(** what still works on a frozen account *)
Definition works_frozen (i : ix) (r : role) : Prop :=
  r = RDao \/ r = RRemaining \/
  In i [Ix_account_toggle_freeze; Ix_account_size_migration; Ix_serum3_liq_force_cancel_orders; Ix_perp_liq_force_cancel_orders;
        Ix_compute_account_data; Ix_perp_cancel_all_orders; Ix_perp_cancel_order_by_client_order_id] \/
  does_nothing i = true.
