(** Vocabulary for the statements about oracle prices. *)
From Coq Require Import List ZArith.
From Verif Require Import Fixed Oracle.
Import ListNotations.
Open Scope Z_scope.

(** at [slot] (and second [ts]) the reading is not older than configured: in slots, and
    for feeds with a publish time in milliseconds at 450ms per slot; a negative setting
    allows any age *)
Definition fresh (s : ostate) (c : ocfg) (ts slot : Z) : Prop :=
  cf_stale c < 0 \/
  (slot <= os_slot s + cf_stale c /\
   forall t, os_time s = Some t -> ts * 1000 <= t * 1000 + cf_stale c * 450).
(** reported deviation at most the configured fraction of the price *)
Definition certain (s : ostate) (c : ocfg) : Prop := os_dev s * fone <= cf_conf c * os_price s.
Definition acceptable (s : ostate) (c : ocfg) (now : option (Z * Z)) : Prop :=
  (forall ts slot, now = Some (ts, slot) -> fresh s c ts slot) /\ certain s c.

(** the chain: content of every account *)
Definition ledger := Z -> content.
(** the accounts handed to the program are accounts of the chain *)
Definition from_ledger (L : ledger) (ais : list ainfo) : Prop := Forall (fun a => a_data a = L (a_key a)) ais.
Definition at_key (L : ledger) (k : Z) : ainfo := mkAi k (L k).
(** everything a price of this bank can depend on, read from the chain *)
Definition ledger_infos (L : ledger) (b : bkinfo) : oinfos :=
  mkOi (at_key L (bk_oracle b)) (Some (at_key L (bk_fallback b))) (Some (at_key L USDC_FEED)) (Some (at_key L SOL_FEED)).
Definition ledger_price (L : ledger) (b : bkinfo) (now : option (Z * Z)) : option fx := bank_price b (ledger_infos L b) now.
Definition ledger_perp_price (L : ledger) (m : pminfo) (now : option (Z * Z)) : option fx :=
  perp_price m (mkOi (at_key L (pm_oracle m)) None (Some (at_key L USDC_FEED)) (Some (at_key L SOL_FEED))) now.
(** tokens of the banks at the beginning of the list *)
Fixpoint leading_tokens (ais : list ainfo) : list Z :=
  match ais with
  | a :: r => match a_data a with CBank b => bk_token b :: leading_tokens r | _ => [] end
  | [] => []
  end.
(** [l] arises from [m] by leaving out elements *)
Inductive subseq : list Z -> list Z -> Prop :=
| sub_nil : subseq [] []
| sub_skip x l m : subseq l m -> subseq l (x :: m)
| sub_take x l m : subseq l m -> subseq (x :: l) (x :: m).
