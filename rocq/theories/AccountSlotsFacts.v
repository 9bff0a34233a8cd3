(** Invariants of the account slot lists. *)
From Coq Require Import ZArith List Bool Lia.
From Verif Require Import OrderTree AccountSlots AccountSlotsSpec.
Import ListNotations.
Open Scope Z_scope.

Definition b2z (b : bool) : Z := if b then 1 else 0.
Definition cnt {A} (f : A -> bool) (l : list A) : Z := Z.of_nat (length (filter f l)).

Lemma cnt_cons : forall A (f : A -> bool) x l, cnt f (x :: l) = b2z (f x) + cnt f l.
Proof. intros A f x l. unfold cnt. simpl. destruct (f x); simpl length; unfold b2z; lia. Qed.

Lemma cnt_nonneg : forall A (f : A -> bool) l, 0 <= cnt f l.
Proof. intros. unfold cnt. lia. Qed.

Lemma cnt_app : forall A (f : A -> bool) l1 l2, cnt f (l1 ++ l2) = cnt f l1 + cnt f l2.
Proof. intros. unfold cnt. rewrite filter_app, app_length. lia. Qed.

Lemma cnt_upd : forall A (f : A -> bool) l i p q, nth_error l i = Some p ->
  cnt f (upd l i q) = cnt f l - b2z (f p) + b2z (f q).
Proof.
  induction l as [|x l IH]; intros [|i] p q H; simpl in H; try discriminate.
  - injection H as ->. simpl. rewrite !cnt_cons. lia.
  - simpl. rewrite !cnt_cons. rewrite (IH i p q H). lia.
Qed.

Lemma cnt_zero : forall A (f : A -> bool) l, (forall p, In p l -> f p = false) -> cnt f l = 0.
Proof.
  induction l as [|x l IH]; intros H; [reflexivity|].
  rewrite cnt_cons, (H x (or_introl eq_refl)). rewrite IH; [reflexivity|]. intros; apply H; right; auto.
Qed.

Lemma cnt_pos : forall A (f : A -> bool) l p, In p l -> f p = true -> 1 <= cnt f l.
Proof.
  induction l as [|x l IH]; intros p Hp Hf; [destruct Hp|]. destruct Hp as [->|H]; rewrite cnt_cons.
  - rewrite Hf. pose proof (cnt_nonneg _ f l). unfold b2z. lia.
  - pose proof (IH p H Hf). destruct (f x); unfold b2z; lia.
Qed.

Lemma cnt_pos_ex : forall A (f : A -> bool) l, 1 <= cnt f l -> exists p, In p l /\ f p = true.
Proof.
  induction l as [|x l IH]; intros H; [unfold cnt in H; simpl in H; lia|].
  rewrite cnt_cons in H. destruct (f x) eqn:E.
  - exists x. split; [left; reflexivity|exact E].
  - unfold b2z in H. destruct IH as [p [Hp Hf]]; [lia|]. exists p. split; [right|]; auto.
Qed.

Lemma cnt_ext : forall A (f g : A -> bool) l, (forall p, In p l -> f p = g p) -> cnt f l = cnt g l.
Proof.
  induction l as [|x l IH]; intros H; [reflexivity|].
  rewrite !cnt_cons, (H x (or_introl eq_refl)), IH; [reflexivity|]. intros; apply H; right; auto.
Qed.

Lemma cnt_filter : forall A (f g : A -> bool) l, (forall p, f p = true -> g p = true) ->
  cnt f (filter g l) = cnt f l.
Proof.
  induction l as [|x l IH]; intros H; [reflexivity|]. simpl.
  destruct (g x) eqn:G; rewrite ?cnt_cons, IH by auto; [reflexivity|].
  destruct (f x) eqn:F; [rewrite (H x F) in G; discriminate|]. unfold b2z. lia.
Qed.

Lemma cnt_repeat : forall A (f : A -> bool) x n, f x = false -> cnt f (repeat x n) = 0.
Proof. intros. apply cnt_zero. intros p Hp. apply repeat_spec in Hp. subst. auto. Qed.

Lemma upd_length : forall A (l : list A) i x, length (upd l i x) = length l.
Proof. induction l; intros [|i] x; simpl; auto. Qed.

Lemma nth_upd_same : forall A (l : list A) i x p, nth_error l i = Some p -> nth_error (upd l i x) i = Some x.
Proof. induction l; intros [|i] x p H; simpl in *; try discriminate; eauto. Qed.

Lemma nth_upd_other : forall A (l : list A) i j x, i <> j -> nth_error (upd l i x) j = nth_error l j.
Proof. induction l; intros [|i] [|j] x H; simpl; auto; try congruence. Qed.

Lemma in_upd : forall A (l : list A) i x q, In q (upd l i x) -> q = x \/ In q l.
Proof.
  induction l as [|y l IH]; intros [|i] x q H; simpl in H; auto.
  - destruct H as [->|H]; [left; auto|right; right; auto].
  - destruct H as [->|H]; [right; left; auto|]. destruct (IH i x q H); [left; auto|right; right; auto].
Qed.

(** an element found at another index than the updated one *)
Lemma in_upd_other : forall A (l : list A) i x q, In q (upd l i x) ->
  (exists p, nth_error l i = Some p /\ q = x) \/ (exists j, j <> i /\ nth_error l j = Some q).
Proof.
  intros A l i x q H. apply In_nth_error in H. destruct H as [j H].
  destruct (Nat.eq_dec i j) as [<-|N].
  - destruct (nth_error l i) as [p|] eqn:E.
    + rewrite (nth_upd_same _ l i x p E) in H. injection H as <-. left. eauto.
    + exfalso. apply nth_error_None in E. assert (HH : nth_error (upd l i x) i <> None) by congruence.
      apply nth_error_Some in HH. rewrite upd_length in HH. lia.
  - rewrite nth_upd_other in H by auto. right. exists j. split; auto.
Qed.

Lemma position_some : forall A (f : A -> bool) l i, position f l = Some i ->
  exists p, nth_error l i = Some p /\ f p = true /\ (forall j q, (j < i)%nat -> nth_error l j = Some q -> f q = false).
Proof.
  induction l as [|x l IH]; intros i H; simpl in H; [discriminate|].
  destruct (f x) eqn:E.
  - injection H as <-. exists x. split; [reflexivity|]. split; [exact E|]. intros; lia.
  - destruct (position f l) as [i0|] eqn:E0; [|discriminate]. injection H as <-.
    destruct (IH i0 eq_refl) as [p [H1 [H2 H3]]]. exists p. split; [exact H1|]. split; [exact H2|].
    intros [|j] q Hj Hq; simpl in Hq; [congruence|]. apply (H3 j q); [lia|exact Hq].
Qed.

Lemma position_none : forall A (f : A -> bool) l, position f l = None -> forall p, In p l -> f p = false.
Proof.
  induction l as [|x l IH]; intros H p Hp; [destruct Hp|]. simpl in H.
  destruct (f x) eqn:E; [discriminate|]. destruct (position f l) eqn:E0; [discriminate|].
  destruct Hp as [<-|Hp]; auto.
Qed.

(** two elements at different indexes both satisfying [f] make the count 2 *)
Lemma cnt_two : forall A (f : A -> bool) l i j p q, i <> j ->
  nth_error l i = Some p -> nth_error l j = Some q -> f p = true -> f q = true -> 2 <= cnt f l.
Proof.
  induction l as [|x l IH]; intros [|i] [|j] p q N Hi Hj Fp Fq; simpl in Hi, Hj; try discriminate; try congruence;
    rewrite cnt_cons.
  - injection Hi as ->. rewrite Fp. apply nth_error_In in Hj. pose proof (cnt_pos _ f l q Hj Fq). unfold b2z. lia.
  - injection Hj as ->. rewrite Fq. apply nth_error_In in Hi. pose proof (cnt_pos _ f l p Hi Fp). unfold b2z. lia.
  - assert (i <> j) by congruence. pose proof (IH i j p q H Hi Hj Fp Fq). destruct (f x); unfold b2z; lia.
Qed.

Definition tis (t : Z) (p : tslot) : bool := t_index p =? t.
Definition sis (t : Z) (p : sslot) : bool := s_market p =? t.
Definition pis (t : Z) (p : pslot) : bool := p_market p =? t.

(** the scan of ensure_token_position *)
Definition act_before (l : list tslot) (i : nat) : nat := length (filter t_active (firstn i l)).

Lemma ensure_scan_spec : forall t l raw act mf, 
  match position (tis t) l with
  | Some i => t <> idx_max -> ensure_scan l raw act t mf = Some ((raw + i)%nat, (act + act_before l i)%nat)
  | None =>
      ensure_scan l raw act t mf =
      match mf with
      | Some x => Some x
      | None =>
          match position (fun p => negb (t_active p)) l with
          | Some i => Some ((raw + i)%nat, (act + act_before l i)%nat)
          | None => None
          end
      end
  end.
Proof.
  intros t l. induction l as [|p l IH]; intros raw act mf; simpl.
  - destruct mf; reflexivity.
  - unfold tis at 1. destruct (t_index p =? t) eqn:E.
    + intros _. unfold act_before. simpl. rewrite !Nat.add_0_r. reflexivity.
    + destruct (t_active p) eqn:EA; simpl.
      * specialize (IH (S raw) (S act) mf). destruct (position (tis t) l) as [i|] eqn:EP; simpl.
        -- intros N. rewrite (IH N). unfold act_before. simpl. rewrite EA. simpl. f_equal. f_equal; lia.
        -- rewrite IH. destruct mf; [reflexivity|].
           destruct (position (fun p0 => negb (t_active p0)) l) as [i|]; simpl; [|reflexivity].
           unfold act_before. simpl. rewrite EA. simpl. f_equal. f_equal; lia.
      * specialize (IH (S raw) act (match mf with None => Some (raw, act) | Some _ => mf end)).
        destruct (position (tis t) l) as [i|] eqn:EP; simpl.
        -- intros N. rewrite (IH N). unfold act_before. simpl. rewrite EA. f_equal. f_equal; lia.
        -- rewrite IH. destruct mf; [reflexivity|].
           unfold act_before. simpl. rewrite !Nat.add_0_r. reflexivity.
Qed.

(** [ensure_token] in closed form *)
Lemma ensure_token_eq : forall a t, t <> idx_max ->
  ensure_token a t =
  match position (tis t) (toks a) with
  | Some i => Some (a, i, act_before (toks a) i)
  | None =>
      match position (fun p => negb (t_active p)) (toks a) with
      | Some i => Some (set_toks a (upd (toks a) i (mkT t 0 0)), i, act_before (toks a) i)
      | None => None
      end
  end.
Proof.
  intros a t N. unfold ensure_token. pose proof (ensure_scan_spec t (toks a) 0 0 None) as H.
  destruct (position (tis t) (toks a)) as [i|] eqn:E.
  - rewrite (H N). simpl. destruct (position_some _ _ _ _ E) as [p [H1 [H2 _]]]. rewrite H1.
    unfold tis in H2. rewrite H2. reflexivity.
  - rewrite H. destruct (position (fun p => negb (t_active p)) (toks a)) as [i|] eqn:E2; [|reflexivity].
    simpl. destruct (position_some _ _ _ _ E2) as [p [H1 [H2 _]]]. rewrite H1.
    apply nth_error_In in H1. pose proof (position_none _ _ _ E p H1) as H3. unfold tis in H3. rewrite H3.
    reflexivity.
Qed.

(** ** The token list against an expected use count [u] *)
Definition tok_inv (l : list tslot) (u : Z -> Z) : Prop :=
  (forall t, t <> idx_max -> cnt (tis t) l <= 1) /\
  (forall p, In p l -> t_active p = true -> t_uses p = u (t_index p)) /\
  (forall t, t <> idx_max -> 0 < u t -> 1 <= cnt (tis t) l) /\
  (forall t, 0 <= u t).

Definition plus1 (u : Z -> Z) (t x : Z) : Z := u x + b2z (x =? t).
Definition minus1 (u : Z -> Z) (t x : Z) : Z := u x - b2z (x =? t).

Lemma tok_inv_ext : forall l u v, (forall t, t <> idx_max -> u t = v t) -> (forall t, 0 <= v t) ->
  tok_inv l u -> tok_inv l v.
Proof.
  intros l u v E N [H1 [H2 [H3 H4]]]. split; [exact H1|]. split.
  - intros p Hp Ha. rewrite <- E; [apply H2; auto|].
    unfold t_active in Ha. apply negb_true_iff, Z.eqb_neq in Ha. exact Ha.
  - split; [|exact N]. intros t Nt Ht. apply H3; [exact Nt|]. rewrite E; auto.
Qed.

Lemma active_idx : forall p, t_active p = true <-> t_index p <> idx_max.
Proof. intros p. unfold t_active. rewrite negb_true_iff, Z.eqb_neq. reflexivity. Qed.

Lemma inactive_idx : forall p, t_active p = false <-> t_index p = idx_max.
Proof. intros p. unfold t_active. rewrite negb_false_iff, Z.eqb_eq. reflexivity. Qed.

(** replacing the slot [i] when its index stays the same *)
Lemma tok_inv_same : forall l u u' i p q, tok_inv l u -> nth_error l i = Some p ->
  t_index q = t_index p -> t_index p <> idx_max -> t_uses q = u' (t_index p) ->
  (forall x, x <> t_index p -> u' x = u x) -> (forall x, 0 <= u' x) ->
  tok_inv (upd l i q) u'.
Proof.
  intros l u u' i p q [H1 [H2 [H3 H4]]] Hi Hq Na Hu Hx Hn.
  assert (Hc : forall t, cnt (tis t) (upd l i q) = cnt (tis t) l).
  { intros t. rewrite (cnt_upd _ _ _ _ _ _ Hi). unfold tis. rewrite Hq. lia. }
  split; [intros t Nt; rewrite Hc; auto|]. split.
  - intros r Hr Ha. destruct (in_upd_other _ _ _ _ _ Hr) as [[p' [_ ->]]|[j [Nj Hj]]].
    + rewrite Hq. exact Hu.
    + assert (Nx : t_index r <> t_index p).
      { intros E. assert (2 <= cnt (tis (t_index p)) l).
        { apply (cnt_two _ (tis (t_index p)) l i j p r); auto; unfold tis; [apply Z.eqb_refl|apply Z.eqb_eq; auto]. }
        pose proof (H1 _ Na). lia. }
      rewrite Hx by exact Nx. apply H2; [eapply nth_error_In; eauto|exact Ha].
  - split; [|exact Hn]. intros t Nt Ht. rewrite Hc.
    destruct (Z.eq_dec t (t_index p)) as [->|N].
    + apply (cnt_pos _ _ _ p); [eapply nth_error_In; eauto|]. unfold tis. apply Z.eqb_refl.
    + apply H3; [exact Nt|]. rewrite <- Hx; auto.
Qed.

(** claiming the free slot [i] *)
Lemma tok_inv_claim : forall l u i p t, tok_inv l u -> nth_error l i = Some p ->
  t_active p = false -> t <> idx_max -> cnt (tis t) l = 0 -> tok_inv (upd l i (mkT t 0 0)) u.
Proof.
  intros l u i p t [H1 [H2 [H3 H4]]] Hi Ha Nt Hz. apply inactive_idx in Ha.
  assert (Hc : forall x, x <> idx_max -> cnt (tis x) (upd l i (mkT t 0 0)) = cnt (tis x) l + b2z (t =? x)).
  { intros x Nx. rewrite (cnt_upd _ _ _ _ _ _ Hi). unfold tis at 2 3. cbn [t_index].
    rewrite Ha. rewrite (proj2 (Z.eqb_neq idx_max x)) by congruence. unfold b2z. lia. }
  assert (Hu : u t = 0).
  { pose proof (H4 t). destruct (Z.eq_dec (u t) 0); [auto|]. pose proof (H3 t Nt). lia. }
  split.
  { intros x Nx. rewrite Hc by auto. destruct (Z.eqb_spec t x); unfold b2z; [subst x; lia|]. pose proof (H1 x Nx). lia. }
  split.
  - intros r Hr Hra. destruct (in_upd _ _ _ _ _ Hr) as [->|Hin]; [cbn [t_uses t_index]; lia|]. apply H2; auto.
  - split; [|exact H4]. intros x Nx Hx. rewrite Hc by auto. pose proof (H3 x Nx Hx). destruct (t =? x); unfold b2z; lia.
Qed.

(** releasing slot [i], whose index is not needed *)
Lemma tok_inv_free : forall l u i p w v, tok_inv l u -> nth_error l i = Some p ->
  (t_index p <> idx_max -> u (t_index p) = 0) -> tok_inv (upd l i (mkT idx_max w v)) u.
Proof.
  intros l u i p w v [H1 [H2 [H3 H4]]] Hi Hz.
  assert (Hc : forall x, x <> idx_max -> cnt (tis x) (upd l i (mkT idx_max w v)) = cnt (tis x) l - b2z (t_index p =? x)).
  { intros x Nx. rewrite (cnt_upd _ _ _ _ _ _ Hi). unfold tis at 2 3. cbn [t_index].
    rewrite (proj2 (Z.eqb_neq idx_max x)) by congruence. unfold b2z. lia. }
  split.
  { intros x Nx. rewrite Hc by auto. pose proof (H1 x Nx). destruct (t_index p =? x); unfold b2z; lia. }
  split.
  - intros r Hr Hra. destruct (in_upd _ _ _ _ _ Hr) as [->|Hin].
    + apply active_idx in Hra. cbn [t_index] in Hra. congruence.
    + apply H2; auto.
  - split; [|exact H4]. intros x Nx Hx. rewrite Hc by auto. pose proof (H3 x Nx Hx).
    destruct (Z.eqb_spec (t_index p) x) as [E|E]; unfold b2z; [|lia].
    exfalso. subst x. rewrite Hz in Hx by auto. lia.
Qed.

(** what an operation on the token list leaves alone *)
Definition same_rest (a b : acct) : Prop :=
  sers b = sers a /\ perps b = perps a /\ swaps b = swaps a /\ next_id b = next_id a.

Lemma same_rest_refl : forall a, same_rest a a.
Proof. intros; repeat split. Qed.
Lemma same_rest_trans : forall a b c, same_rest a b -> same_rest b c -> same_rest a c.
Proof. unfold same_rest. intros a b c [? [? [? ?]]] [? [? [? ?]]]. repeat split; congruence. Qed.
Lemma same_rest_toks : forall a l, same_rest a (set_toks a l).
Proof. intros. repeat split. Qed.

Lemma ensure_token_inv : forall a t u a1 raw act, t <> idx_max -> tok_inv (toks a) u ->
  ensure_token a t = Some (a1, raw, act) ->
  tok_inv (toks a1) u /\ same_rest a a1 /\ exists p, nth_error (toks a1) raw = Some p /\ t_index p = t.
Proof.
  intros a t u a1 raw act Nt HI H. rewrite ensure_token_eq in H by auto.
  destruct (position (tis t) (toks a)) as [i|] eqn:E.
  - injection H as <- <- _. split; [exact HI|]. split; [apply same_rest_refl|].
    destruct (position_some _ _ _ _ E) as [p [H1 [H2 _]]]. exists p. split; [exact H1|]. apply Z.eqb_eq. exact H2.
  - destruct (position (fun p => negb (t_active p)) (toks a)) as [i|] eqn:E2; [|discriminate].
    injection H as <- <- _. destruct (position_some _ _ _ _ E2) as [p [H1 [H2 _]]].
    apply negb_true_iff in H2. cbn [toks set_toks]. split.
    + apply tok_inv_claim with (p := p); auto. apply cnt_zero. apply (position_none _ _ _ E).
    + split; [apply same_rest_toks|]. exists (mkT t 0 0). split; [eapply nth_upd_same; eauto|reflexivity].
Qed.

Lemma ensure_and_use_inv : forall a t u a1, t <> idx_max -> tok_inv (toks a) u ->
  ensure_and_use a t = Some a1 -> tok_inv (toks a1) (plus1 u t) /\ same_rest a a1.
Proof.
  intros a t u a1 Nt HI H. unfold ensure_and_use in H.
  destruct (ensure_token a t) as [[[a2 raw] act]|] eqn:E; [|discriminate].
  destruct (ensure_token_inv a t u a2 raw act Nt HI E) as [HI2 [HR [p [Hp Ht]]]].
  unfold increment_in_use in H. rewrite Hp in H. destruct (t_uses p + 1 <=? idx_max) eqn:EL; [|discriminate].
  injection H as <-. split; [|eapply same_rest_trans; [exact HR|apply same_rest_toks]].
  cbn [toks set_toks]. destruct HI2 as [A [B [C D]]] eqn:EH.
  apply tok_inv_same with (u := u) (p := p); auto.
  - congruence.
  - cbn [t_uses]. rewrite (B p); [|eapply nth_error_In; eauto|apply active_idx; congruence].
    unfold plus1. rewrite Ht, Z.eqb_refl. unfold b2z. lia.
  - intros x Nx. unfold plus1. rewrite (proj2 (Z.eqb_neq x t)) by congruence. unfold b2z. lia.
  - intros x. unfold plus1. pose proof (D x). destruct (x =? t); unfold b2z; lia.
Qed.

Lemma release_inv : forall a t u a1, t <> idx_max -> tok_inv (toks a) u -> 1 <= u t ->
  release a t = Some a1 -> tok_inv (toks a1) (minus1 u t) /\ same_rest a a1.
Proof.
  intros a t u a1 Nt HI Hu H. unfold release, token_position in H.
  destruct (position (fun p => t_index p =? t) (toks a)) as [i|] eqn:E; [|discriminate].
  destruct (position_some _ _ _ _ E) as [p [H1 [H2 _]]]. apply Z.eqb_eq in H2.
  unfold decrement_in_use in H. rewrite H1 in H. injection H as <-. split; [|apply same_rest_toks].
  cbn [toks set_toks]. destruct HI as [A [B [C D]]] eqn:EH.
  apply tok_inv_same with (u := u) (p := p); auto.
  - congruence.
  - cbn [t_uses]. rewrite (B p); [|eapply nth_error_In; eauto|apply active_idx; congruence].
    unfold minus1. rewrite H2, Z.eqb_refl. unfold b2z. lia.
  - intros x Nx. unfold minus1. rewrite (proj2 (Z.eqb_neq x t)) by congruence. unfold b2z. lia.
  - intros x. unfold minus1. pose proof (D x). destruct (Z.eqb_spec x t); unfold b2z; [subst; lia|lia].
Qed.

(** [release] cannot fail while the token is needed *)
Lemma release_ok : forall a t u, t <> idx_max -> tok_inv (toks a) u -> 1 <= u t ->
  exists a1, release a t = Some a1.
Proof.
  intros a t u Nt [A [B [C D]]] Hu. unfold release, token_position.
  destruct (position (fun p => t_index p =? t) (toks a)) as [i|] eqn:E.
  - destruct (position_some _ _ _ _ E) as [p [H1 _]]. unfold decrement_in_use. rewrite H1. eauto.
  - exfalso. assert (HH : 1 <= cnt (tis t) (toks a)) by (apply C; [auto|lia]).
    apply cnt_pos_ex in HH. destruct HH as [p [Hp Ht]].
    pose proof (position_none _ _ _ E p Hp) as HN. unfold tis in Ht. simpl in HN. congruence.
Qed.

Lemma deactivate_inv : forall a raw u a1, tok_inv (toks a) u -> deactivate_token a raw = Some a1 ->
  tok_inv (toks a1) u /\ same_rest a a1.
Proof.
  intros a raw u a1 HI H. unfold deactivate_token in H.
  destruct (nth_error (toks a) raw) as [p|] eqn:E; [|discriminate].
  destruct (t_uses p =? 0) eqn:EU; [|discriminate]. injection H as <-. split; [|apply same_rest_toks].
  cbn [toks set_toks]. apply tok_inv_free with (p := p); auto. intros Na. destruct HI as [A [B [C D]]].
  rewrite <- (B p); [apply Z.eqb_eq; exact EU|eapply nth_error_In; eauto|apply active_idx; auto].
Qed.

Lemma decrement_dust_inv : forall a t d u a1, t <> idx_max -> tok_inv (toks a) u -> 1 <= u t ->
  decrement_dust a t d = Some a1 -> tok_inv (toks a1) (minus1 u t) /\ same_rest a a1.
Proof.
  intros a t d u a1 Nt HI Hu H. unfold decrement_dust in H.
  destruct (token_position a t) as [raw|] eqn:E.
  - destruct (decrement_in_use a raw) as [a2|] eqn:E2; [|discriminate].
    assert (HR : release a t = Some a2) by (unfold release; rewrite E; exact E2).
    destruct (release_inv a t u a2 Nt HI Hu HR) as [HI2 HS].
    destruct (nth_error (toks a2) raw) as [p|] eqn:E3; [|discriminate].
    destruct (negb (0 <? t_uses p) && d).
    + destruct (deactivate_inv _ _ _ _ HI2 H) as [X Y]. split; [exact X|eapply same_rest_trans; eauto].
    + injection H as <-. split; auto.
  - exfalso. destruct (release_ok a t u Nt HI Hu) as [a2 HR]. unfold release in HR. rewrite E in HR. discriminate.
Qed.

Lemma decrement_dust_ok : forall a t d u, t <> idx_max -> tok_inv (toks a) u -> 1 <= u t ->
  exists a1, decrement_dust a t d = Some a1.
Proof.
  intros a t d u Nt HI Hu. destruct (release_ok a t u Nt HI Hu) as [a2 HR]. unfold decrement_dust.
  unfold release in HR. destruct (token_position a t) as [raw|] eqn:E; [|discriminate]. rewrite HR.
  unfold decrement_in_use in HR. destruct (nth_error (toks a) raw) as [p|] eqn:Ep; [|discriminate].
  injection HR as <-. cbn [toks set_toks]. rewrite (nth_upd_same _ _ _ _ _ Ep). cbn [t_uses].
  destruct (Z.ltb_spec 0 (Z.max 0 (t_uses p - 1))) as [L|L]; cbn [negb andb]; [eauto|].
  destruct d; [|eauto]. unfold deactivate_token. cbn [toks set_toks]. rewrite (nth_upd_same _ _ _ _ _ Ep).
  cbn [t_uses]. rewrite (proj2 (Z.eqb_eq (Z.max 0 (t_uses p - 1)) 0)) by lia. eauto.
Qed.
