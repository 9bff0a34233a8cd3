(** Representation of the arena by inductive critbit trees; slot allocator. *)
From Coq Require Import List ZArith Lia Bool Arith Permutation.
From Verif Require Import OrderTree KeyBits.
Import ListNotations.
Open Scope Z_scope.

(** ** array lemmas *)
Lemma upd_length {A} (l : list A) n x : length (upd l n x) = length l.
Proof. revert n; induction l as [|h t IH]; intros [|n]; cbn [upd length]; auto. Qed.

Lemma upd_same {A} (l : list A) n x : (n < length l)%nat -> nth_error (upd l n x) n = Some x.
Proof.
  revert n; induction l as [|h t IH]; intros [|n] Hn; cbn [upd nth_error length] in *; try lia; auto.
  apply IH. lia.
Qed.

Lemma upd_other {A} (l : list A) n m x : n <> m -> nth_error (upd l n x) m = nth_error l m.
Proof.
  revert n m; induction l as [|h t IH]; intros [|n] [|m] Hn; cbn [upd nth_error] in *; auto; try lia.
Qed.

Lemma nth_some_lt {A} (l : list A) n x : nth_error l n = Some x -> (n < length l)%nat.
Proof. intros H. apply nth_error_Some. congruence. Qed.

(** ** trees *)
Inductive ctree :=
| CL (h : nat) (l : leaf)
| CN (h : nat) (plen key e0 e1 : Z) (t0 t1 : ctree).

Definition rt (t : ctree) : nat :=
  match t with CL h _ => h | CN h _ _ _ _ _ _ => h end.
Fixpoint hs (t : ctree) : list nat :=
  match t with CL h _ => [h] | CN h _ _ _ _ a b => h :: hs a ++ hs b end.
Fixpoint lvs (t : ctree) : list leaf :=
  match t with CL _ l => [l] | CN _ _ _ _ _ a b => lvs a ++ lvs b end.
Fixpoint hlvs (t : ctree) : list (nat * leaf) :=
  match t with CL h l => [(h, l)] | CN _ _ _ _ _ a b => hlvs a ++ hlvs b end.
Fixpoint mexp (t : ctree) : Z :=
  match t with CL _ l => expiry l | CN _ _ _ _ _ a b => Z.min (mexp a) (mexp b) end.

Fixpoint rep (ns : list anynode) (t : ctree) : Prop :=
  match t with
  | CL h l => nth_error ns h = Some (NLeaf l)
  | CN h plen key e0 e1 a b =>
      nth_error ns h = Some (NInner (mkInner plen key (rt a) (rt b) e0 e1)) /\
      rep ns a /\ rep ns b
  end.

(** a leaf with field values that fit the Rust types and whose expiry does
    not overflow u64 *)
Definition leaf_ok (l : leaf) : Prop :=
  key_ok (l_key l) /\ 0 <= l_tif l < 2 ^ 16 /\ 0 <= l_timestamp l /\
  l_timestamp l + l_tif l <= u64_max.

Fixpoint wf (t : ctree) : Prop :=
  match t with
  | CL _ l => leaf_ok l
  | CN _ plen key e0 e1 a b =>
      0 <= plen <= 127 /\ key_ok key /\ wf a /\ wf b /\
      e0 = mexp a /\ e1 = mexp b /\
      (forall l, In l (lvs a) -> pre plen key (l_key l) /\ bitat plen (l_key l) = false) /\
      (forall l, In l (lvs b) -> pre plen key (l_key l) /\ bitat plen (l_key l) = true)
  end.

Definition ckey (t : ctree) : Z :=
  match t with CL _ l => l_key l | CN _ _ key _ _ _ _ => key end.

Lemma rt_in t : In (rt t) (hs t).
Proof. destruct t; cbn; auto. Qed.

Lemma lvs_nonempty t : lvs t <> [].
Proof.
  induction t as [h l|h plen key e0 e1 a IHa b IHb]; cbn [lvs]; [discriminate|].
  destruct (lvs a); [contradiction|discriminate].
Qed.

Lemma hs_count t : S (length (hs t)) = (2 * length (lvs t))%nat.
Proof.
  induction t as [h l|h plen key e0 e1 a IHa b IHb]; cbn [hs lvs length]; [reflexivity|].
  rewrite !app_length. lia.
Qed.

Lemma hlvs_snd t : map snd (hlvs t) = lvs t.
Proof.
  induction t as [h l|h plen key e0 e1 a IHa b IHb]; cbn [hlvs lvs map snd]; [reflexivity|].
  rewrite map_app. congruence.
Qed.

Lemma hlvs_in_hs t h l : In (h, l) (hlvs t) -> In h (hs t).
Proof.
  induction t as [h' l'|h' plen key e0 e1 a IHa b IHb]; cbn [hlvs hs]; intros H.
  - destruct H as [H|[]]. inversion H. left; reflexivity.
  - right. apply in_or_app. apply in_app_or in H as [H|H]; auto.
Qed.

Lemma wf_leaf_ok t l : wf t -> In l (lvs t) -> leaf_ok l.
Proof.
  induction t as [h' l'|h' plen key e0 e1 a IHa b IHb]; cbn [wf lvs]; intros Hw Hin.
  - destruct Hin as [<-|[]]; assumption.
  - destruct Hw as (_ & _ & Ha & Hb & _). apply in_app_or in Hin as [H|H]; auto.
Qed.

Lemma wf_ckey_ok t : wf t -> key_ok (ckey t).
Proof. destruct t; cbn [wf ckey]; intros H; [apply H | tauto]. Qed.

Lemma rep_frame ns ns' t :
  (forall h, In h (hs t) -> nth_error ns' h = nth_error ns h) -> rep ns t -> rep ns' t.
Proof.
  induction t as [h' l'|h' plen key e0 e1 a IHa b IHb]; cbn [rep hs]; intros He Hr.
  - rewrite He; [assumption|left; reflexivity].
  - destruct Hr as (H1 & H2 & H3). split; [rewrite He; [assumption|left; reflexivity]|].
    split; [apply IHa|apply IHb]; auto; intros h Hh; apply He; right; apply in_or_app; auto.
Qed.

Lemma rep_lt ns t h : rep ns t -> In h (hs t) -> (h < length ns)%nat.
Proof.
  induction t as [h' l'|h' plen key e0 e1 a IHa b IHb]; cbn [rep hs]; intros Hr Hin.
  - destruct Hin as [<-|[]]. eapply nth_some_lt; eassumption.
  - destruct Hr as (H1 & H2 & H3). destruct Hin as [<-|Hin]; [eapply nth_some_lt; eassumption|].
    apply in_app_or in Hin as [H|H]; auto.
Qed.

Lemma rep_hlvs ns t h l : rep ns t -> In (h, l) (hlvs t) -> nth_error ns h = Some (NLeaf l).
Proof.
  induction t as [h' l'|h' plen key e0 e1 a IHa b IHb]; cbn [rep hlvs]; intros Hr Hin.
  - destruct Hin as [Heq|[]]. inversion Heq; subst. assumption.
  - destruct Hr as (H1 & H2 & H3). apply in_app_or in Hin as [H|H]; auto.
Qed.

(** ** paths *)
Record frame := mkFrame {
  f_h : nat; f_plen : Z; f_key : Z; f_b : bool; f_e : Z; f_eo : Z; f_sib : ctree }.

Definition plug1 (f : frame) (t : ctree) : ctree :=
  if f_b f then CN (f_h f) (f_plen f) (f_key f) (f_eo f) (f_e f) (f_sib f) t
           else CN (f_h f) (f_plen f) (f_key f) (f_e f) (f_eo f) t (f_sib f).
Fixpoint plug (p : list frame) (t : ctree) : ctree :=
  match p with [] => t | f :: p' => plug p' (plug1 f t) end.

Definition hsp (p : list frame) : list nat := flat_map (fun f => f_h f :: hs (f_sib f)) p.
Definition stk (p : list frame) : list (nat * bool) := map (fun f => (f_h f, f_b f)) p.
Fixpoint prel (p : list frame) : list leaf :=
  match p with [] => [] | f :: p' => prel p' ++ (if f_b f then lvs (f_sib f) else []) end.
Fixpoint postl (p : list frame) : list leaf :=
  match p with [] => [] | f :: p' => (if f_b f then [] else lvs (f_sib f)) ++ postl p' end.

Definition frame_inner (f : frame) (h : nat) : inner :=
  if f_b f then mkInner (f_plen f) (f_key f) (rt (f_sib f)) h (f_eo f) (f_e f)
           else mkInner (f_plen f) (f_key f) h (rt (f_sib f)) (f_e f) (f_eo f).

Fixpoint reppath (ns : list anynode) (p : list frame) (h : nat) : Prop :=
  match p with
  | [] => True
  | f :: p' => nth_error ns (f_h f) = Some (NInner (frame_inner f h)) /\
               rep ns (f_sib f) /\ reppath ns p' (f_h f)
  end.

Definition fit1 (f : frame) (k : Z) : Prop :=
  pre (f_plen f) (f_key f) k /\ bitat (f_plen f) k = f_b f.
Definition fits (p : list frame) (k : Z) : Prop := Forall (fun f => fit1 f k) p.

Fixpoint wfp (p : list frame) (e : Z) : Prop :=
  match p with
  | [] => True
  | f :: p' =>
      0 <= f_plen f <= 127 /\ key_ok (f_key f) /\ wf (f_sib f) /\
      f_e f = e /\ f_eo f = mexp (f_sib f) /\
      (forall l, In l (lvs (f_sib f)) ->
         pre (f_plen f) (f_key f) (l_key l) /\ bitat (f_plen f) (l_key l) = negb (f_b f) /\
         fits p' (l_key l)) /\
      wfp p' (Z.min e (f_eo f))
  end.

Lemma rt_plug1 f t : rt (plug1 f t) = f_h f.
Proof. unfold plug1; destruct (f_b f); reflexivity. Qed.

Lemma rt_plug p t t' : rt t = rt t' -> rt (plug p t) = rt (plug p t').
Proof.
  revert t t'; induction p as [|f p IH]; intros t t' H; cbn [plug]; [assumption|].
  apply IH. rewrite !rt_plug1. reflexivity.
Qed.

Lemma rep_plug ns p t : rep ns (plug p t) <-> rep ns t /\ reppath ns p (rt t).
Proof.
  revert t; induction p as [|f p IH]; intros t; cbn [plug reppath]; [tauto|].
  rewrite IH, rt_plug1. unfold plug1, frame_inner.
  destruct (f_b f); cbn [rep]; tauto.
Qed.

Lemma hs_plug p t : Permutation (hs (plug p t)) (hsp p ++ hs t).
Proof.
  revert t; induction p as [|f p IH]; intros t; cbn [plug hsp flat_map app]; [apply Permutation_refl|].
  rewrite IH. fold (hsp p). unfold plug1. destruct (f_b f); cbn [hs].
  - rewrite <- Permutation_middle. apply perm_skip. rewrite !app_assoc.
    apply Permutation_app_tail. apply Permutation_app_comm.
  - rewrite <- Permutation_middle. apply perm_skip. rewrite <- app_assoc.
    rewrite (Permutation_app_comm (hs t)). rewrite !app_assoc.
    apply Permutation_app_tail. apply Permutation_app_comm.
Qed.

Lemma lvs_plug p t : lvs (plug p t) = prel p ++ lvs t ++ postl p.
Proof.
  revert t; induction p as [|f p IH]; intros t; cbn [plug prel postl app]; [rewrite app_nil_r; reflexivity|].
  rewrite IH. unfold plug1. destruct (f_b f); cbn [lvs app]; rewrite <- ?app_assoc; cbn [app]; reflexivity.
Qed.

Lemma wf_plug p t : wf (plug p t) <->
  wf t /\ wfp p (mexp t) /\ (forall l, In l (lvs t) -> fits p (l_key l)).
Proof.
  revert t; induction p as [|f p IH]; intros t; cbn [plug wfp].
  - split; [|tauto]. intros H. split; [assumption|]. split; [exact I|]. intros; constructor.
  - rewrite IH. unfold plug1. destruct (f_b f) eqn:Hb; cbn [wf mexp lvs]; split.
    + intros ((H1 & H2 & H3 & H4 & H5 & H6 & H7 & H8) & Hp & Hf).
      rewrite <- H5 in Hp. rewrite Z.min_comm in Hp.
      refine (conj H4 (conj (conj H1 (conj H2 (conj H3 (conj H6 (conj H5 (conj _ _)))))) _)).
      * intros l Hl. destruct (H7 l Hl) as [Ha Hc].
        refine (conj Ha (conj Hc _)). apply Hf. apply in_or_app; auto.
      * assumption.
      * intros l Hl. constructor; [|apply Hf; apply in_or_app; auto].
        unfold fit1. rewrite Hb. apply H8; assumption.
    + intros (H1 & (H2 & H3 & H4 & H5 & H6 & H7 & H8) & Hf).
      refine (conj (conj H2 (conj H3 (conj H4 (conj H1 (conj H6 (conj H5 (conj _ _))))))) (conj _ _)).
      * intros l Hl. destruct (H7 l Hl) as (Ha & Hc & _). exact (conj Ha Hc).
      * intros l Hl. specialize (Hf l Hl). inversion Hf as [|? ? [Hx Hy] ?]; subst.
        rewrite Hb in Hy. exact (conj Hx Hy).
      * rewrite Z.min_comm. rewrite <- H6. assumption.
      * intros l Hl. apply in_app_or in Hl as [Hl|Hl]; [apply H7; assumption|].
        specialize (Hf l Hl). inversion Hf; assumption.
    + intros ((H1 & H2 & H3 & H4 & H5 & H6 & H7 & H8) & Hp & Hf).
      rewrite <- H6 in Hp.
      refine (conj H3 (conj (conj H1 (conj H2 (conj H4 (conj H5 (conj H6 (conj _ _)))))) _)).
      * intros l Hl. destruct (H8 l Hl) as [Ha Hc].
        refine (conj Ha (conj Hc _)). apply Hf. apply in_or_app; auto.
      * assumption.
      * intros l Hl. constructor; [|apply Hf; apply in_or_app; auto].
        unfold fit1. rewrite Hb. apply H7; assumption.
    + intros (H1 & (H2 & H3 & H4 & H5 & H6 & H7 & H8) & Hf).
      refine (conj (conj H2 (conj H3 (conj H1 (conj H4 (conj H5 (conj H6 (conj _ _))))))) (conj _ _)).
      * intros l Hl. specialize (Hf l Hl). inversion Hf as [|? ? [Hx Hy] ?]; subst.
        rewrite Hb in Hy. exact (conj Hx Hy).
      * intros l Hl. destruct (H7 l Hl) as (Ha & Hc & _). exact (conj Ha Hc).
      * rewrite <- H6. assumption.
      * intros l Hl. apply in_app_or in Hl as [Hl|Hl]; [|apply H7; assumption].
        specialize (Hf l Hl). inversion Hf; assumption.
Qed.

(** recorded expiries along the path when the hole's expiry becomes [e] *)
Fixpoint set_exp (p : list frame) (e : Z) : list frame :=
  match p with
  | [] => []
  | f :: p' => mkFrame (f_h f) (f_plen f) (f_key f) (f_b f) e (f_eo f) (f_sib f)
                 :: set_exp p' (Z.min e (f_eo f))
  end.

Lemma set_exp_same p e : wfp p e -> set_exp p e = p.
Proof.
  revert e; induction p as [|f p IH]; intros e; cbn [wfp set_exp]; [reflexivity|].
  intros (_ & _ & _ & He & _ & _ & Hp). rewrite IH by assumption.
  destruct f; cbn in *; subst; reflexivity.
Qed.

Lemma fits_set_exp p e k : fits (set_exp p e) k <-> fits p k.
Proof.
  revert e; induction p as [|f p IH]; intros e; cbn [set_exp]; [tauto|].
  unfold fits in *. split; intros H; inversion H; subst; constructor;
    try (unfold fit1 in *; cbn in *; assumption); eapply IH; eassumption.
Qed.

Lemma wfp_set_exp p e e' : wfp p e -> wfp (set_exp p e') e'.
Proof.
  revert e e'; induction p as [|f p IH]; intros e e'; cbn [wfp set_exp]; [trivial|].
  cbn [f_plen f_key f_b f_e f_eo f_sib f_h].
  intros (H1 & H2 & H3 & H4 & H5 & H6 & H7).
  refine (conj H1 (conj H2 (conj H3 (conj eq_refl (conj H5 (conj _ _)))))).
  - intros l Hl. destruct (H6 l Hl) as (Ha & Hb & Hc). refine (conj Ha (conj Hb _)).
    apply fits_set_exp. assumption.
  - eapply IH; eassumption.
Qed.

Lemma set_exp_stk p e : stk (set_exp p e) = stk p.
Proof. revert e; induction p as [|f p IH]; intros e; cbn; f_equal; apply IH. Qed.
Lemma set_exp_hsp p e : hsp (set_exp p e) = hsp p.
Proof. revert e; induction p as [|f p IH]; intros e; cbn; [reflexivity|]. f_equal. f_equal. apply IH. Qed.
Lemma set_exp_prel p e : prel (set_exp p e) = prel p.
Proof. revert e; induction p as [|f p IH]; intros e; cbn; [reflexivity|]. rewrite IH. reflexivity. Qed.
Lemma set_exp_postl p e : postl (set_exp p e) = postl p.
Proof. revert e; induction p as [|f p IH]; intros e; cbn; [reflexivity|]. rewrite IH. reflexivity. Qed.
Lemma set_exp_hplug p e t : rt (plug (set_exp p e) t) = rt (plug p t).
Proof.
  revert e t; induction p as [|f p IH]; intros e t; cbn [set_exp plug]; [reflexivity|].
  rewrite IH. apply rt_plug. rewrite !rt_plug1. reflexivity.
Qed.

Lemma reppath_frame ns ns' p h :
  (forall x, In x (hsp p) -> nth_error ns' x = nth_error ns x) -> reppath ns p h -> reppath ns' p h.
Proof.
  revert h; induction p as [|f p IH]; intros h He; cbn [reppath]; [trivial|].
  cbn [hsp flat_map] in He. fold (hsp p) in He.
  intros (H1 & H2 & H3). split; [|split].
  - rewrite He; [assumption|left; reflexivity].
  - eapply rep_frame; [|eassumption]. intros x Hx. apply He. right. apply in_or_app; auto.
  - apply IH; [|assumption]. intros x Hx. apply He. right. apply in_or_app; auto.
Qed.

Lemma node_inner a h i : nth_error (nodes a) h = Some (NInner i) -> node a h = Some (NInner i).
Proof. unfold node; intros ->; reflexivity. Qed.
Lemma node_leaf a h l : nth_error (nodes a) h = Some (NLeaf l) -> node a h = Some (NLeaf l).
Proof. unfold node; intros ->; reflexivity. Qed.

(** [update_parents] fixes up exactly the recorded expiries *)
Lemma update_parents_ok p : forall a e new h,
  wfp p e -> reppath (nodes a) p h -> NoDup (hsp p) ->
  exists ns', update_parents a (stk p) e new = Some (set_nodes a ns') /\
    reppath ns' (set_exp p new) h /\ length ns' = length (nodes a) /\
    (forall x, ~ In x (hsp p) -> nth_error ns' x = nth_error (nodes a) x).
Proof.
  induction p as [|f p IH]; intros a e new h Hw Hr Hnd.
  - exists (nodes a). cbn. destruct a; auto.
  - cbn [stk map update_parents wfp reppath set_exp hsp flat_map] in *. fold (stk p) in *. fold (hsp p) in *.
    destruct Hw as (Hpl & Hk & Hws & He & Heo & Hl & Hw).
    destruct Hr as (Hr1 & Hr2 & Hr3).
    rewrite (node_inner _ _ _ Hr1).
    assert (Hce : child_exp (frame_inner f h) (f_b f) = f_e f).
    { unfold child_exp, frame_inner; destruct (f_b f); reflexivity. }
    rewrite Hce, He, Z.eqb_refl.
    assert (Hie : inner_expiry (frame_inner f h) = Z.min e (f_eo f)).
    { unfold inner_expiry, frame_inner; destruct (f_b f); cbn; subst; [apply Z.min_comm|reflexivity]. }
    assert (Hin : inner_expiry (set_child_exp (frame_inner f h) (f_b f) new) = Z.min new (f_eo f)).
    { unfold inner_expiry, frame_inner, set_child_exp; destruct (f_b f); cbn; [apply Z.min_comm|reflexivity]. }
    rewrite Hie, Hin.
    set (i' := set_child_exp (frame_inner f h) (f_b f) new).
    set (a' := set_nodes a (upd (nodes a) (f_h f) (NInner i'))).
    inversion Hnd as [|x xs Hnin Hnd']; subst x xs.
    assert (Hnd2 : NoDup (hsp p)).
    { clear - Hnd'. induction (hs (f_sib f)) as [|y ys IHy]; [assumption|]. inversion Hnd'; auto. }
    assert (Hr3' : reppath (nodes a') p (f_h f)).
    { eapply reppath_frame; [|exact Hr3]. intros x Hx. cbn. apply upd_other.
      intros <-. apply Hnin. apply in_or_app; auto. }
    destruct (IH a' (Z.min e (f_eo f)) (Z.min new (f_eo f)) (f_h f) Hw Hr3' Hnd2)
      as (ns' & Hu & Hrp & Hlen & Hoth).
    exists ns'. split; [|split; [|split]].
    + rewrite Hu. reflexivity.
    + cbn [reppath f_h f_sib f_b f_plen f_key]. split; [|split].
      * rewrite Hoth.
        2:{ intros Hc. apply Hnin. apply in_or_app; auto. }
        cbn. rewrite upd_same by (eapply nth_some_lt; eassumption).
        f_equal. f_equal. unfold i', set_child_exp, frame_inner; cbn. destruct (f_b f); reflexivity.
      * eapply rep_frame; [|exact Hr2]. intros x Hx. rewrite Hoth.
        -- cbn. apply upd_other. intros <-. apply Hnin. apply in_or_app; auto.
        -- clear - Hnd' Hx. intros Hc. induction (hs (f_sib f)) as [|y ys IHy]; [inversion Hx|].
           inversion Hnd' as [|? ? Hn1 Hn2]; subst. destruct Hx as [->|Hx]; [apply Hn1; apply in_or_app; auto|auto].
      * exact Hrp.
    + rewrite Hlen. cbn. apply upd_length.
    + intros x Hx. rewrite Hoth.
      * cbn. apply upd_other. intros <-. apply Hx. left; reflexivity.
      * intros Hc. apply Hx. right. apply in_or_app; auto.
Qed.

(** ** the slot allocator *)
Fixpoint flist (ns : list anynode) (fl : list nat) : Prop :=
  match fl with
  | [] => True
  | h :: tl =>
      exists next, nth_error ns h = Some (NFree next (match tl with [] => true | _ => false end)) /\
        (match tl with [] => True | h2 :: _ => next = h2 end) /\ flist ns tl
  end.

Record ainv (a : arena) (used fl : list nat) : Prop := {
  ai_bump : (bump a <= length (nodes a))%nat;
  ai_len : free_len a = length fl;
  ai_head : match fl with [] => True | h :: _ => free_head a = h end;
  ai_list : flist (nodes a) fl;
  ai_part : Permutation (used ++ fl) (seq 0 (bump a)) }.

Lemma flist_frame ns ns' fl :
  (forall x, In x fl -> nth_error ns' x = nth_error ns x) -> flist ns fl -> flist ns' fl.
Proof.
  induction fl as [|h tl IH]; intros He; cbn [flist]; [trivial|].
  intros (next & H1 & H2 & H3). exists next. split; [rewrite He; [assumption|left; reflexivity]|].
  split; [assumption|]. apply IH; [|assumption]. intros x Hx; apply He; right; assumption.
Qed.

Lemma ainv_nodup a used fl : ainv a used fl -> NoDup (used ++ fl).
Proof.
  intros H. eapply Permutation_NoDup; [apply Permutation_sym; apply ai_part; exact H|apply seq_NoDup].
Qed.

Lemma ainv_lt a used fl x : ainv a used fl -> In x (used ++ fl) -> (x < bump a)%nat.
Proof.
  intros H Hin. eapply Permutation_in in Hin; [|apply (ai_part _ _ _ H)]. apply in_seq in Hin. lia.
Qed.

Lemma nodup_app_disj {A} (x y : list A) h : NoDup (x ++ y) -> In h x -> In h y -> False.
Proof.
  induction x as [|a x IH]; cbn; intros Hn Hx Hy; [inversion Hx|].
  inversion Hn as [|? ? H1 H2]; subst. destruct Hx as [->|Hx].
  - apply H1. apply in_or_app; auto.
  - auto.
Qed.

Lemma nodup_app_l {A} (x y : list A) : NoDup (x ++ y) -> NoDup x.
Proof.
  induction x as [|a x IH]; cbn; intros Hn; [constructor|].
  inversion Hn as [|? ? H1 H2]; subst. constructor; [|auto]. intros H. apply H1. apply in_or_app; auto.
Qed.
Lemma nodup_app_r {A} (x y : list A) : NoDup (x ++ y) -> NoDup y.
Proof. induction x as [|a x IH]; cbn; intros Hn; [assumption|]. inversion Hn; auto. Qed.

Lemma ainv_perm a used used' fl : Permutation used used' -> ainv a used fl -> ainv a used' fl.
Proof.
  intros Hp [H1 H2 H3 H4 H5]. constructor; try assumption.
  rewrite <- H5. apply Permutation_app_tail. symmetry. assumption.
Qed.

(** writing only at used slots keeps the allocator intact *)
Lemma ainv_set_nodes a used fl ns' :
  ainv a used fl -> length ns' = length (nodes a) ->
  (forall x, ~ In x used -> nth_error ns' x = nth_error (nodes a) x) ->
  ainv (set_nodes a ns') used fl.
Proof.
  intros H Hl Ho. pose proof (ainv_nodup _ _ _ H) as Hnd. destruct H as [H1 H2 H3 H4 H5].
  constructor; cbn; try assumption; [lia|].
  eapply flist_frame; [|eassumption]. intros x Hx. apply Ho. intros Hu.
  eapply nodup_app_disj; eassumption.
Qed.

Lemma ainv_used_len a used fl : ainv a used fl ->
  (length used + length fl = bump a)%nat.
Proof.
  intros H. pose proof (Permutation_length (ai_part _ _ _ H)) as Hl.
  rewrite app_length, seq_length in Hl. exact Hl.
Qed.

Lemma slot_insert_ok a used fl v : ainv a used fl ->
  if Nat.ltb (length used) (length (nodes a)) then
    exists a' h fl', slot_insert a v = Some (a', inl h) /\ ainv a' (h :: used) fl' /\
      ~ In h used /\ length (nodes a') = length (nodes a) /\
      nth_error (nodes a') h = Some v /\
      (forall x, In x used -> nth_error (nodes a') x = nth_error (nodes a) x)
  else slot_insert a v = Some (a, inr tt).
Proof.
  intros H. pose proof (ainv_nodup _ _ _ H) as Hnd. pose proof (ainv_used_len _ _ _ H) as Hul.
  assert (Hlt := fun x => ainv_lt _ _ _ x H).
  destruct H as [H1 H2 H3 H4 H5]. unfold slot_insert.
  destruct fl as [|h tl].
  - cbn in H2. rewrite H2. cbn in Hul.
    destruct (Nat.ltb_spec (length used) (length (nodes a))) as [Hc|Hc].
    + replace (Nat.ltb (bump a) (length (nodes a))) with true by (symmetry; apply Nat.ltb_lt; lia).
      eexists _, _, []. split; [reflexivity|].
      assert (Hni : ~ In (bump a) used).
      { intros Hi. specialize (Hlt (bump a)). rewrite app_nil_r in Hlt. specialize (Hlt Hi). lia. }
      repeat split; cbn [bump free_len free_head nodes length flist]; auto.
      * rewrite upd_length. lia.
      * rewrite seq_S. cbn [plus app]. rewrite app_nil_r in *.
        rewrite <- H5. apply Permutation_cons_append.
      * rewrite upd_length. reflexivity.
      * apply upd_same. lia.
      * intros x Hx. apply upd_other. intros <-. contradiction.
    + replace (Nat.ltb (bump a) (length (nodes a))) with false by (symmetry; apply Nat.ltb_ge; lia).
      reflexivity.
  - cbn [length] in *. rewrite H2.
    replace (Nat.ltb (length used) (length (nodes a))) with true by (symmetry; apply Nat.ltb_lt; lia).
    cbn [flist] in H4. destruct H4 as (next & Hn1 & Hn2 & Hn3).
    rewrite H3, Hn1.
    assert (Heqb : Bool.eqb (match tl with [] => true | _ => false end) (Nat.eqb (length tl) 0) = true).
    { destruct tl; reflexivity. }
    rewrite Heqb. eexists _, h, tl. split; [reflexivity|].
    assert (Hnu : ~ In h used).
    { intros Hi. eapply nodup_app_disj; [exact Hnd|exact Hi|left; reflexivity]. }
    assert (Hnt : ~ In h tl).
    { apply nodup_app_r in Hnd. inversion Hnd; assumption. }
    repeat split; cbn; auto.
    + rewrite upd_length. assumption.
    + eapply flist_frame; [|eassumption]. intros x Hx. apply upd_other. intros <-. contradiction.
    + rewrite <- H5. apply Permutation_middle.
    + rewrite upd_length. reflexivity.
    + apply upd_same. eapply nth_some_lt; eassumption.
    + intros x Hx. apply upd_other. intros <-. contradiction.
Qed.

Lemma slot_remove_ok a used fl h v : ainv a (h :: used) fl -> node a h = Some v ->
  exists a', slot_remove a h = Some (a', v) /\ ainv a' used (h :: fl) /\
    length (nodes a') = length (nodes a) /\
    (forall x, x <> h -> nth_error (nodes a') x = nth_error (nodes a) x).
Proof.
  intros H Hv. pose proof (ainv_nodup _ _ _ H) as Hnd.
  destruct H as [H1 H2 H3 H4 H5]. unfold slot_remove. rewrite Hv.
  eexists. split; [reflexivity|].
  assert (Hlt : (h < length (nodes a))%nat).
  { unfold node in Hv. destruct (nth_error (nodes a) h) eqn:Hn; [|discriminate].
    eapply nth_some_lt; eassumption. }
  assert (Hnf : ~ In h fl).
  { cbn in Hnd. inversion Hnd as [|? ? Hx Hy]; subst. intros Hi. apply Hx. apply in_or_app; auto. }
  repeat split; cbn; auto.
  - rewrite upd_length. assumption.
  - exists (free_head a). split; [|split].
    + rewrite upd_same by assumption. f_equal. f_equal. rewrite H2. destruct fl; reflexivity.
    + destruct fl; [trivial|]. assumption.
    + eapply flist_frame; [|eassumption]. intros x Hx. apply upd_other. intros <-. contradiction.
  - rewrite <- H5. cbn [app]. symmetry. apply Permutation_middle.
  - rewrite upd_length. reflexivity.
  - intros x Hx. apply upd_other. congruence.
Qed.

Lemma lvs_in_mexp t l : In l (lvs t) -> mexp t <= expiry l.
Proof.
  induction t as [h' l'|h' plen key e0 e1 a IHa b IHb]; cbn [lvs mexp]; intros H.
  - destruct H as [<-|[]]; lia.
  - apply in_app_or in H as [H|H]; [specialize (IHa H)|specialize (IHb H)]; lia.
Qed.
