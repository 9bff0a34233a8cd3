(** Specification vocabulary for collateral fees. *)
From Coq Require Import List ZArith Bool.
From Verif Require Import PerpTypes Interest Bank BankSpec Health CollatFee Fixed.
Import ListNotations.
Open Scope Z_scope.

Definition zsum (L : list Z) : Z := fold_right Z.add 0 L.
(** the balance that counts: spot and perp balance in maintenance health, plus what is in spot orders *)
Definition fee_balance (hc : cache) (B : list fx) (j : nat) : fx :=
  nth j B 0 + zsum (map (fun s => (if Nat.eqb (si_base s) j then si_res_base s else 0) + (if Nat.eqb (si_quote s) j then si_res_quote s else 0)) (hc_serum hc)).
(** the maintenance health of the [j]th token's balance *)
Definition fee_health (hc : cache) (B : list fx) (j : nat) : fx :=
  match nth_error (hc_tokens hc) j with Some t => contribution t HMaint (fee_balance hc B j) | None => 0 end.
Definition asset_health (hc : cache) (B : list fx) : fx := zsum (map (fun j => Z.max 0 (fee_health hc B j)) (seq 0 (length (hc_tokens hc)))).
Definition liab_health (hc : cache) (B : list fx) : fx := zsum (map (fun j => Z.max 0 (- fee_health hc B j)) (seq 0 (length (hc_tokens hc)))).
(** the part of the assets that is used to cover the liabilities, at most one *)
Definition usage (hc : cache) (B : list fx) : fx := Z.min fone (liab_health hc B * fone / asset_health hc B).

(** the token with this index, at this place of the cache *)
Definition is_token (hc : cache) (idx : Z) (j : nat) (t : tinfo) : Prop := nth_error (hc_tokens hc) j = Some t /\ ti_index t = idx.
Definition price (t : tinfo) : fx := pr_oracle (ti_prices t).

(** the debts of an account in quote, without weights: borrowed tokens, negative quote and short base positions of perp
    markets at the price of the token these are settled in; each rounded up *)
Definition settle_price (hc : cache) (idx : Z) : fx :=
  match find (fun t => ti_index t =? idx) (hc_tokens hc) with Some t => price t | None => 0 end.
Definition debt (v : fx) : fx := Z.max 0 (- v).
Definition true_liabs (hc : cache) : fx :=
  zsum (map (fun t => debt (fmul (ti_spot t) (price t))) (hc_tokens hc)) +
  zsum (map (fun pi => debt (fmul (pi_quote pi) (settle_price hc (pi_settle pi))) +
    debt (fmul (fmul (of_int (pi_base pi * pi_lot pi)) (pr_oracle (pi_prices pi))) (settle_price hc (pi_settle pi)))) (hc_perps hc)).
(** the settle tokens of all perp markets are at the place of the cache that is their token index *)
Definition settle_in_place (hc : cache) : Prop :=
  Forall (fun pi => exists t, is_token hc (pi_settle pi) (Z.to_nat (pi_settle pi)) t) (hc_perps hc).

(** one position of a bank changed, the bank's totals with it *)
Definition bank_moved1 (b b' : bank) (p p' : tpos) : Prop :=
  b_dep b' - b_dep b = Z.max (t_ix p') 0 - Z.max (t_ix p) 0 /\ b_bor b' - b_bor b = Z.max (- t_ix p') 0 - Z.max (- t_ix p) 0 /\
  t_use p' = t_use p /\ b_di b' = b_di b /\ b_bi b' = b_bi b /\ b_fw b' = b_fw b.
(** the worth of a position, times 2^96 *)
Definition claim1 (b : bank) (p : tpos) : Z := BankSpec.worth (b_di b) (b_bi b) (t_ix p).

(** the fee on one collateral: balance times usage times time times rate, rounded down in each step; none without a rate, weight or balance *)
Record coll_ok (hc : cache) (B : list fx) (secs : Z) (e : centry) (f : fx) : Prop := {
  ck_none : forall j t, token_pos (hc_tokens hc) (ce_idx e) = Some j -> nth_error (hc_tokens hc) j = Some t ->
    ce_rate e <= 0 \/ ce_aw e = 0 \/ fee_balance hc B j <= 0 -> f = 0;
  ck_some : forall j t, token_pos (hc_tokens hc) (ce_idx e) = Some j -> nth_error (hc_tokens hc) j = Some t ->
    0 < ce_rate e -> ce_aw e <> 0 -> 0 < fee_balance hc B j ->
    0 <= f <= fee_balance hc B j /\
    f * (fone * fone * fone) <= fee_balance hc B j * (usage hc B * (secs * INV_DAY)) * ce_rate e <
      f * (fone * fone * fone) + fee_balance hc B j * ce_rate e * fone + ce_rate e * (fone * fone) + fone * fone * fone }.
(** the price of the token of this entry *)
Definition entry_price (hc : cache) (e : centry) : fx :=
  match token_pos (hc_tokens hc) (ce_idx e) with Some j => match nth_error (hc_tokens hc) j with Some t => price t | None => 0 end | None => 0 end.
(** what one position pays: nothing unless its health is negative; otherwise the part of the fees that its health has in the
    liabilities, at its price; the bank gets it *)
Record paid_ok (hc : cache) (B : list fx) (usd : fx) (e e' : centry) (f : fx) : Prop := {
  pk_tok : exists j t, token_pos (hc_tokens hc) (ce_idx e) = Some j /\ nth_error (hc_tokens hc) j = Some t /\
    (0 <= fee_health hc B j -> e' = e /\ f = 0) /\
    (fee_health hc B j < 0 -> 0 < price t -> 0 <= usd ->
       let h := - fee_health hc B j in let L := liab_health hc B in
       0 <= f /\ f * price t * L <= h * usd * fone < f * price t * L + L * (usd + fone + price t)) /\
    (fee_health hc B j < 0 -> 0 < b_di (ce_bank e) -> 0 < b_bi (ce_bank e) -> 0 <= b_lof (ce_bank e) ->
       0 <= f /\ b_fees (ce_bank e') = b_fees (ce_bank e) + f /\
       bank_moved1 (ce_bank e) (ce_bank e') (ce_pos e) (ce_pos e') /\ b_dust (ce_bank e') = b_dust (ce_bank e) /\
       - f * fone - fone < claim1 (ce_bank e') (ce_pos e') - claim1 (ce_bank e) (ce_pos e) < - f * fone + Z.max (b_di (ce_bank e)) (b_bi (ce_bank e)));
  pk_idx : ce_idx e' = ce_idx e /\ ce_rate e' = ce_rate e /\ ce_aw e' = ce_aw e }.
