(** Collateral fees: instructions/token_charge_collateral_fees.rs.
    Not modelled: log events, the statistics [collected_collateral_fees], finding the banks
    among the passed accounts (Oracle). *)
From Coq Require Import List ZArith Lia Bool.
From Verif Require Import OrderTree Keys PerpTypes Interest Bank Health LiqState TokenLiq Fixed.
Import ListNotations.
Open Scope Z_scope.

(** :64 [I80F48::from_num(1.157407407407e-5)]: the nearest multiple of 2^-48 *)
Definition INV_DAY : fx := 3257812230.
(** :82, ~100$ *)
Definition MIN_LIABS : fx := of_int 100000000.

(** cache.rs:756-797 [assets_and_liabs]: unweighted.  The perp part takes the settle token's INDEX as a
    position in the list of token infos (:776); [None]: out of bounds.  The i64 product
    [base_lots * base_lot_size] is unbounded here. *)
Definition add_value (al : fx * fx) (negative : bool) (v : fx) : fx * fx :=
  if negative then (fst al, snd al - v) else (fst al + v, snd al).
Definition spot_values (toks : list tinfo) : fx * fx :=
  fold_left (fun al t => add_value al (ti_spot t <? 0) (fmul (ti_spot t) (pr_oracle (ti_prices t)))) toks (0, 0).
Fixpoint serum_values (toks : list tinfo) (O : list sinfo) (al : fx * fx) : option (fx * fx) :=
  match O with
  | [] => Some al
  | si :: O' =>
      let* q := nth_error toks (si_quote si) in
      let* b := nth_error toks (si_base si) in
      serum_values toks O' (fst al + fmul (si_res_base si) (pr_oracle (ti_prices b)) + fmul (si_res_quote si) (pr_oracle (ti_prices q)), snd al)
  end.
Definition perp_value (al : fx * fx) (pi : pinfo) (qp : fx) : fx * fx :=
  let al := add_value al (pi_quote pi <? 0) (fmul (pi_quote pi) qp) in
  let v := fmul (fmul (of_int (pi_base pi * pi_lot pi)) (pr_oracle (pi_prices pi))) qp in
  add_value al (v <? 0) v.
Fixpoint perp_values (toks : list tinfo) (P : list pinfo) (al : fx * fx) : option (fx * fx) :=
  match P with
  | [] => Some al
  | pi :: P' =>
      let* t := nth_error toks (Z.to_nat (pi_settle pi)) in
      perp_values toks P' (perp_value al pi (pr_oracle (ti_prices t)))
  end.
Definition equity_parts (hc : cache) : option (fx * fx) :=
  let* al := serum_values (hc_tokens hc) (hc_serum hc) (spot_values (hc_tokens hc)) in
  perp_values (hc_tokens hc) (hc_perps hc) al.

(** an active token position of the account with its bank, in the order of the accounts; [ce_rate]:
    [collateral_fee_per_day] as I80F48 (a positive rate that rounds to zero charges zero), [ce_aw]:
    the bank's [maint_asset_weight] *)
Record centry := mkCE { ce_idx : Z; ce_bank : bank; ce_pos : tpos; ce_rate : fx; ce_aw : fx }.

(** :87-94 *)
Definition add_reserved (B : list fx) (O : list sinfo) : list fx :=
  fold_left (fun B si => add_at (add_at B (si_base si) (si_res_base si)) (si_quote si) (si_res_quote si)) O B.
(** :96-105: asset and liab health *)
Definition health_totals (toks : list tinfo) (B : list fx) : fx * fx :=
  fold_left (fun al tb => let h := contribution (fst tb) HMaint (snd tb) in
    if 0 <? h then (fst al + h, snd al) else (fst al, snd al - h)) (combine toks B) (0, 0).

(** :121-158: the fee on each collateral and their sum in quote *)
Fixpoint collateral_fees (hc : cache) (B : list fx) (scaling : fx) (E : list centry) : option (list fx * fx) :=
  match E with
  | [] => Some ([], 0)
  | e :: E' =>
      let* (fee, usd) :=
        if (ce_rate e <=? 0) || (ce_aw e =? 0) then Some (0, 0)
        else
          let* i := token_pos (hc_tokens hc) (ce_idx e) in
          let bal := nth i B 0 in
          if bal <=? 0 then Some (0, 0)
          else
            let fee := fmul (fmul bal scaling) (ce_rate e) in
            let* _ := guard (fee <=? bal) in
            let* t := nth_error (hc_tokens hc) i in
            Some (fee, fmul fee (pr_oracle (ti_prices t))) in
      let* (F, tot) := collateral_fees hc B scaling E' in
      Some (fee :: F, usd + tot)
  end.

(** :160-215: what each borrow pays.  When the position becomes inactive it is removed, and reading
    it for the log (:205) fails the instruction. *)
Fixpoint charge_borrows (hc : cache) (B : list fx) (liabs usd : fx) (now : Z) (E : list centry) : option (list centry * list fx) :=
  match E with
  | [] => Some ([], [])
  | e :: E' =>
      let* i := token_pos (hc_tokens hc) (ce_idx e) in
      let* t := nth_error (hc_tokens hc) i in
      let h := contribution t HMaint (nth i B 0) in
      let* (e', fee) :=
        if 0 <=? h then Some (e, 0)
        else
          let* sh := cdiv h liabs in
          let* fee := cdiv (fmul (Z.abs sh) usd) (pr_oracle (ti_prices t)) in
          let* (b, p, act) := withdraw_without_fee (ce_bank e) (ce_pos e) fee now in
          let* _ := guard act in
          let b := set_totals b (b_dep b) (b_bor b) (b_dust b) (b_fees b + fee) in
          Some (mkCE (ce_idx e) b p (ce_rate e) (ce_aw e), fee) in
      let* (R, F) := charge_borrows hc B liabs usd now E' in
      Some (e' :: R, fee :: F)
  end.

(** :25-218.  Result: the new time stamp, the positions and banks, seconds charged for, the fee on each
    collateral, the sum in quote, what each position pays *)
Record cout := mkCO { co_last : Z; co_entries : list centry; co_secs : Z; co_coll : list fx; co_usd : fx; co_paid : list fx }.
Definition no_charge (last : Z) (E : list centry) : cout := mkCO last E 0 [] 0 [].
Definition charge_collateral_fees (interval now last : Z) (hc : cache) (E : list centry) : option cout :=
  if interval =? 0 then Some (no_charge 0 E)
  else if last =? 0 then Some (no_charge now E)
  else
    let* _ := guard (last + interval <? 2 ^ 64) in
    if now <? last + interval then Some (no_charge last E)
    else
      let* _ := guard (2 * interval <? 2 ^ 64) in
      let secs := Z.min (now - last) (2 * interval) in
      let time_scaling := fmul (of_int secs) INV_DAY in
      let* (_, liabs) := equity_parts hc in
      if liabs <? MIN_LIABS then Some (no_charge now E)
      else
        let* B := balances hc HMaint false in
        let B := add_reserved B (hc_serum hc) in
        let '(tot_a, tot_l) := health_totals (hc_tokens hc) B in
        if (tot_a =? 0) || (tot_l =? 0) then Some (no_charge now E)
        else
          let* ratio := cdiv tot_l tot_a in
          let usage := Z.min (Z.max ratio 0) fone in
          let scaling := fmul usage time_scaling in
          let* (coll, usd) := collateral_fees hc B scaling E in
          let* (E', paid) := charge_borrows hc B tot_l usd now E in
          Some (mkCO now E' secs coll usd paid).
