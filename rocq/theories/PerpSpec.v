(** Specification vocabulary for histories of a perp market. *)
From Coq Require Import List ZArith Lia Bool.
From Verif Require Import OrderTree OrderTreeSpec BookArena Keys Fixed BookSide BookSideSpec EventQueue PerpTypes Book BookSpec PerpSystem.
Import ListNotations.
Open Scope Z_scope.

(** the position of an address; closed accounts and inactive positions count as empty *)
Definition posn (a : account) : position := match a_pos a with Some p => p | None => pos0 end.
Definition pos_in (A : list (Z * account)) (pk : Z) : position :=
  match aget A pk with Some a => posn a | None => pos0 end.
Definition pos_of (y : sys) (pk : Z) : position := pos_in (y_accs y) pk.

(** quantity that [pk] owns among resting orders *)
Definition owned (pk : Z) (L : list entry) : Z :=
  sumZ (map (fun e : entry => if l_owner (snd e) =? pk then l_quantity (snd e) else 0) L).
(** maker lots of [pk] on side [sd] in pending events *)
Definition in_flight (sd : side) (pk : Z) (Q : list event) : Z :=
  sumZ (map (fun ev => match ev with
    | EFill f => if (f_maker f =? pk) && Bool.eqb (f_taker_side f) (negb sd) then f_qty f else 0
    | EOut u => if (u_owner u =? pk) && Bool.eqb (u_side u) sd then u_qty u else 0 end) Q).
(** signed sum over the pending fills that [pk] is the taker of: bids count positive *)
Definition taking (pk : Z) (g : fill -> Z) (Q : list event) : Z :=
  sumZ (map (fun f => if f_taker f =? pk then (if f_taker_side f then g f else - g f) else 0) (fills Q)).
(** sum over all accounts *)
Definition total (g : position -> Z) (y : sys) : Z := sumZ (map (fun x => g (posn (snd x))) (y_accs y)).

(** the order of side [sd] is recorded in the slot it names: id, tree, and remaining
    quantity including what pending fills have not yet delivered *)
Definition recorded (mkt : Z) (A : list (Z * account)) (Q : list event) (sd : side) (e : entry) : Prop :=
  exists a s, aget A (l_owner (snd e)) = Some a /\ slot_at a (l_owner_slot (snd e)) = Some s /\
    s_market s = mkt /\ s_side s = sd /\ s_comp s = fst e /\ s_id s = l_key (snd e) /\
    s_qty s = l_quantity (snd e) + filled_qty (l_key (snd e)) Q.
