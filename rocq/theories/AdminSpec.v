(** Specification vocabulary for edits of settings. *)
From Coq Require Import List ZArith Bool.
From Verif Require Import Bank Health HealthSpec Scaling LiqState AdminEdit Fixed.
Import ListNotations.
Open Scope Z_scope.

(** the same settings but for the two maintenance weights, the initial asset weight,
    reduce-only, the weight shift, the platform's liquidation fee and the collateral fee *)
Definition with_tight (maw iaw mlw : fx) (ro : Z) (shift : shift) (plat : fx) (cfee : flt) (s : tset) : tset :=
  mkSet (s_oracle s) (s_conf s) (s_stale s) (s_fallback s) (s_sp s) (s_sp_interval s) (s_sp_dgl s) (s_sp_gl s) (s_adj s) (s_util0 s) (s_rate0
  s) (s_util1 s) (s_rate1 s) (s_maxr s) (s_orig s) (s_loan s) maw iaw mlw (s_ilw s) (s_liqfee s) (s_minvault s) (s_nbl s) (s_nbw s) (s_bscale
  s) (s_dscale s) ro (s_name s) (s_tier s) (s_fc s) (s_tcst s) (s_tcsm s) (s_flash s) (s_curve s) (s_tutil s) shift (s_dlimit s) (s_zero s)
  plat (s_dis s) cfee (s_fw s).
(** the same settings but for the fallback oracle *)
Definition with_fallback (f : Z) (s : tset) : tset :=
  mkSet (s_oracle s) (s_conf s) (s_stale s) f (s_sp s) (s_sp_interval s) (s_sp_dgl s) (s_sp_gl s) (s_adj s) (s_util0 s) (s_rate0 s) (s_util1
  s) (s_rate1 s) (s_maxr s) (s_orig s) (s_loan s) (s_maw s) (s_iaw s) (s_mlw s) (s_ilw s) (s_liqfee s) (s_minvault s) (s_nbl s) (s_nbw s)
  (s_bscale s) (s_dscale s) (s_ro s) (s_name s) (s_tier s) (s_fc s) (s_tcst s) (s_tcsm s) (s_flash s) (s_curve s) (s_tutil s) (s_shift s)
  (s_dlimit s) (s_zero s) (s_plat s) (s_dis s) (s_cfee s) (s_fw s).
(** how strict reduce-only is: off, no new borrows, no new borrows and deposits *)
Definition strictness (ro : Z) : Z := if ro =? 1 then 2 else if ro =? 2 then 1 else 0.
(** the maintenance weights at a time *)
Definition maint_at (s : tset) (t : Z) : fx * fx := maint_weights (s_maw s) (s_mlw s) (s_shift s) t.
(** nothing but what makes the token safer: collateral counts the same or for nothing
    (initially), fees the same or none, reduce-only the same or stricter; maintenance weights
    go on as they did, or stay where they are *)
Definition tightened (now : Z) (s s' : tset) : Prop :=
  s' = with_tight (s_maw s') (s_iaw s') (s_mlw s') (s_ro s') (s_shift s') (s_plat s') (s_cfee s') s /\
  (s_iaw s' = s_iaw s \/ s_iaw s' = 0) /\
  (s_plat s' = s_plat s \/ s_plat s' = 0) /\
  (s_cfee s' = s_cfee s \/ s_cfee s' = f_zero) /\
  (s_ro s' = s_ro s \/ (strictness (s_ro s) <= strictness (s_ro s') /\ 0 <= s_ro s' <= 2)) /\
  ((forall t, maint_at s' t = maint_at s t) \/ (forall t, maint_at s' t = maint_at s now)).

(** arguments of unsigned types *)
Definition unsigned (o : option Z) : Prop := match o with Some n => 0 <= n | None => True end.
Definition params_ok (p : params) : Prop := unsigned (p_ro p) /\ unsigned (p_sh_start p) /\ unsigned (p_sh_end p).
Definition event_ok (ev : tevent) : Prop := match ev with EEdit _ p => params_ok p | _ => True end.
Definition listing_ok (l : tlisting) : Prop := match l with LRegister _ s _ => 0 <= s_ro s | LTrustless _ _ _ _ _ _ _ => True end.

(** a number that is at least (above, at most) a bound, or not a number *)
Definition at_least (k : Z) (f : flt) : Prop := match f with FNan => True | FInf neg => neg = false | FFin u => k * 2 ^ 1074 <= u end.
Definition above (k : Z) (f : flt) : Prop := match f with FNan => True | FInf neg => neg = false | FFin u => k * 2 ^ 1074 < u end.
Definition at_most (k : Z) (f : flt) : Prop := match f with FNan => True | FInf neg => neg = true | FFin u => u <= k * 2 ^ 1074 end.
(** settings in their ranges *)
Definition ranges (s : tset) : Prop :=
  (0 <= s_conf s /\ 0 <= s_util0 s <= s_util1 s /\ s_util1 s <= fone /\
   0 <= s_rate0 s /\ 0 <= s_rate1 s /\ 0 <= s_maxr s /\ 0 <= s_zero s /\ 0 <= s_adj s /\ 0 <= s_loan s /\ 0 <= s_orig s) /\
  (0 <= s_maw s /\ 0 <= s_iaw s /\ 0 <= s_mlw s /\ 0 <= s_ilw s /\ 0 <= s_liqfee s /\ 0 <= s_plat s) /\
  (-1 <= s_nbl s /\ 0 <= s_ro s <= 2) /\
  (at_least 0 (s_minvault s) /\ at_most 1 (s_minvault s) /\ above 0 (s_bscale s) /\ above 0 (s_dscale s) /\
   at_least 0 (s_tcst s) /\ at_least 0 (s_tcsm s) /\ at_least 0 (s_flash s) /\ at_least 1 (s_curve s) /\
   at_least 0 (s_tutil s) /\ at_most 1 (s_tutil s) /\ at_least 0 (s_cfee s) /\ at_least 0 (s_sp_dgl s) /\ at_least 0 (s_sp_gl s)) /\
  (0 <= sh_start (s_shift s) /\ sh_inv (s_shift s) = shift_inv (sh_start (s_shift s)) (sh_end (s_shift s)) /\
   0 <= sh_asset (s_shift s) /\ 0 <= sh_liab (s_shift s)).
(** the order of weights, and what disabled liquidation and forced withdrawal ask for *)
Definition ordered_by (maw mlw : fx) (s : tset) : Prop :=
  s_iaw s <= maw /\ mlw <= s_ilw s /\
  (s_dis s = true -> (s_ro s = 1 \/ s_ro s = 2) /\ maw = 0) /\
  (s_fw s = true -> s_ro s = 1 /\ s_dis s = true /\ maw = 0).
Definition ordered (s : tset) : Prop := ordered_by (s_maw s) (s_mlw s) s.
(** the weights a shift leads to respect the initial weights too *)
Definition targets_ordered (s : tset) : Prop := sh_inv (s_shift s) <> 0 -> ordered_by (sh_asset (s_shift s)) (sh_liab (s_shift s)) s.

(** ** health *)
(** where scaling starts: f64::MAX and infinity mean never *)
Definition start_of (f : flt) : option Z :=
  match f with FFin u => if u =? (2 ^ 53 - 1) * 2 ^ 971 * 2 ^ 1074 then None else Some (u / 2 ^ 978) | _ => None end.
(** the settings that health takes from a bank *)
Definition health_cfg (ix now : Z) (s : tset) : wcfg :=
  mkWC ix (fst (maint_at s now)) (s_iaw s) (snd (maint_at s now)) (s_ilw s) (start_of (s_dscale s)) (start_of (s_bscale s)) (negb (s_dis s)).
(** an account's balance of a token, with old and new settings of the token *)
Record held_token := mkHeld { h_ix : Z; h_bank : bank; h_prices : prices; h_native : fx; h_old : tset; h_new : tset }.
Fixpoint infos (now : Z) (settings : held_token -> tset) (D : list held_token) : option (list tinfo) :=
  match D with
  | [] => Some []
  | d :: D' =>
      match token_info (health_cfg (h_ix d) now (settings d)) (h_bank d) (h_prices d) (h_native d), infos now settings D' with
      | Some t, Some T => Some (t :: T)
      | _, _ => None
      end
  end.
Definition account_health (now : Z) (settings : held_token -> tset) (D : list held_token) (O : list sinfo) (P : list pinfo) (ty : htype) : option fx :=
  match infos now settings D with Some T => health (mkHC T O P) ty | None => None end.
(** the perp info with another initial overall weight *)
Definition with_overall (w : fx) (p : pinfo) : pinfo :=
  mkPI (pi_market p) (pi_settle p) (pi_maint_aw p) (pi_init_aw p) (pi_maint_lw p) (pi_init_lw p) (pi_maint_overall p) w
    (pi_lot p) (pi_base p) (pi_bids p) (pi_asks p) (pi_quote p) (pi_prices p) (pi_orders p) (pi_fills p).

(** ** fast listings: the times at which tokens were listed *)
Fixpoint listed (g : listing) (H : list fevent) : list Z :=
  match H with
  | [] => []
  | FList now :: H' => match fast_list now g with Some g' => now :: listed g' H' | None => listed g H' end
  | FAllow n :: H' => listed (fstep g (FAllow n)) H'
  end.
Definition in_week (k : Z) (t : Z) : bool := t / (7 * 24 * 60 * 60) =? k.
(** times do not go back *)
Fixpoint in_time (from : Z) (H : list fevent) : Prop :=
  match H with
  | [] => True
  | FList now :: H' => from <= now /\ in_time now H'
  | FAllow _ :: H' => in_time from H'
  end.
Definition allows_at_most (A : Z) (ev : fevent) : Prop := match ev with FAllow n => n <= A | FList _ => True end.

(** a condition holds of the token at every moment of a history *)
Fixpoint along (Q : token -> Prop) (t : token) (H : list tevent) : Prop :=
  Q t /\ match H with
         | [] => True
         | ev :: H' => match tstep t ev with Some t' => along Q t' H' | None => True end
         end.
