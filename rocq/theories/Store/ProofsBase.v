(** Basic lemmas about the store model: tree-level specifications and the single Put. *)
From stdpp Require Import prelude gmap strings.
From Coq Require Import ZifyBool ZifyNat.
From Verif.Base Require Import GoInt Envelope.
From Verif.Store Require Import Avl AvlProofs GoHeap GoHeapProofs Model.
Open Scope Z_scope.

(** ** avltree with size field *)
Section tree.
Context {V : Type}.
Implicit Types t : avltree V.

Definition avl_ok t : Prop :=
  (∃ h, avl (av_root t) h) ∧ sorted (inorder (av_root t)) ∧
  av_size t = Z.of_nat (length (inorder (av_root t))).

Lemma avl_ok_new : avl_ok (avl_new : avltree V).
Proof. split; [exists 0%nat; constructor|]. split; done. Qed.

Lemma linsert_length k (v : V) l :
  sorted l ->
  length (linsert k v l) = (if has_key k l then length l else S (length l)).
Proof.
  unfold has_key. induction l as [|[k' v'] l IH]; simpl; auto. intros [Hf Hs].
  destruct (Z.compare_spec k k') as [->|Hlt|Hgt]; simpl.
  - by rewrite Z.eqb_refl.
  - destruct (Z.eqb_spec k k'); [lia|]. rewrite lget_notin; [done|].
    eapply Forall_impl; [exact Hf|]; simpl; intros; lia.
  - destruct (Z.eqb_spec k k'); [lia|]. rewrite IH by done.
    by destruct (bool_decide _).
Qed.

Lemma lremove_length k (l : list (Z * V)) :
  length (lremove k l) = (if has_key k l then length l - 1 else length l)%nat.
Proof.
  unfold has_key. induction l as [|[k' v'] l IH]; simpl; auto.
  destruct (Z.eqb_spec k k'); simpl.
  - lia.
  - rewrite IH. case_bool_decide as H; auto.
    destruct l; [by destruct H|]. simpl. lia.
Qed.

Lemma has_key_true k (l : list (Z * V)) : has_key k l = true ↔ k ∈ l.*1.
Proof.
  unfold has_key. rewrite bool_decide_eq_true. induction l as [|[k' v'] l IH]; simpl.
  - split; [by intros []|by inversion 1].
  - rewrite elem_of_cons. destruct (Z.eqb_spec k k'); [naive_solver|]. rewrite IH. naive_solver.
Qed.

Lemma has_key_false k (l : list (Z * V)) : has_key k l = false ↔ k ∉ l.*1.
Proof. rewrite <-has_key_true. destruct (has_key k l); naive_solver. Qed.

Lemma linsert_perm k (v : V) l : k ∉ l.*1 -> linsert k v l ≡ₚ (k, v) :: l.
Proof.
  induction l as [|[k' v'] l IH]; simpl; auto. intros Hn. rewrite not_elem_of_cons in Hn.
  destruct Hn as [Hne Hn].
  destruct (Z.compare_spec k k'); [done|done|].
  rewrite IH by done. apply Permutation_swap.
Qed.

Lemma avl_put_ok k v t :
  avl_ok t ->
  ∃ t', avl_put k v t = Some t' ∧ avl_ok t' ∧
        inorder (av_root t') = linsert k v (inorder (av_root t)).
Proof.
  intros [[h Ha] [Hs Hsz]]. unfold avl_put.
  destruct (put_spec k v _ h Ha Hs) as (t' & f & new & E & Hi & Ha' & _ & Hn).
  rewrite E. simpl. eexists. split; [done|]. simpl. split; [|done].
  split; [eauto|]. simpl. rewrite Hi. split; [by apply sorted_linsert|].
  rewrite linsert_length by done. subst new. destruct (has_key k _); simpl; lia.
Qed.

Lemma avl_remove_ok k t :
  avl_ok t ->
  ∃ t', avl_remove k t = Some t' ∧ avl_ok t' ∧
        inorder (av_root t') = lremove k (inorder (av_root t)).
Proof.
  intros [[h Ha] [Hs Hsz]]. unfold avl_remove.
  destruct (remove_spec k _ h Ha Hs) as (t' & f & found & E & Hi & Hn & h' & Ha' & _).
  rewrite E. simpl. eexists. split; [done|]. simpl. split; [|done].
  split; [eauto|]. simpl. rewrite Hi. split; [by apply sorted_lremove|].
  rewrite lremove_length. subst found. destruct (has_key k _) eqn:E'; simpl; [|lia].
  apply has_key_true in E'. destruct (inorder (av_root t)); [by inversion E'|]. simpl in *. lia.
Qed.

Lemma avl_left_ok t : avl_left t = head (inorder (av_root t)).
Proof. apply left_inorder. Qed.

Lemma avl_remove_head k v l t :
  avl_ok t -> inorder (av_root t) = (k, v) :: l ->
  ∃ t', avl_remove k t = Some t' ∧ avl_ok t' ∧ inorder (av_root t') = l.
Proof.
  intros Hok Hi. destruct (avl_remove_ok k t Hok) as (t' & E & Hok' & Hi').
  exists t'. repeat split; auto; try apply Hok'. rewrite Hi', Hi. simpl. by rewrite Z.eqb_refl.
Qed.

Lemma avl_get_ok k t : avl_ok t -> avl_get k t = lget k (inorder (av_root t)).
Proof. intros [_ [Hs _]]. by apply get_inorder. Qed.

Lemma avl_get_None k t : avl_ok t -> avl_get k t = None ↔ k ∉ (inorder (av_root t)).*1.
Proof.
  intros Hok. rewrite avl_get_ok by done. rewrite <-has_key_false. unfold has_key.
  rewrite bool_decide_eq_false. by rewrite <-eq_None_not_Some.
Qed.
End tree.

Arguments avl_ok : simpl never.

(** ** The collision loop *)
Lemma find_fudge_spec n f ts t :
  avl_ok t ->
  let g := find_fudge n f ts t in
  f <= g <= f + Z.of_nat n ∧
  (∀ i, f <= i < g -> wrap64 (ts + i) ∈ (inorder (av_root t)).*1) ∧
  (g < f + Z.of_nat n -> wrap64 (ts + g) ∉ (inorder (av_root t)).*1).
Proof.
  intros Hok. revert f. induction n as [|n IH]; intros f; cbn [find_fudge].
  { repeat split; try lia. }
  destruct (avl_get (wrap64 (ts + f)) t) eqn:E.
  - destruct (IH (f + 1)) as (H1 & H2 & H3). cbv zeta. split; [lia|]. split.
    + intros i Hi. destruct (decide (i = f)) as [->|].
      * destruct (decide (wrap64 (ts + f) ∈ (inorder (av_root t)).*1)) as [|Hn]; [done|].
        apply avl_get_None in Hn; [congruence|done].
      * apply H2. lia.
    + intros Hg. apply H3. lia.
  - apply avl_get_None in E; [|done]. cbv zeta. repeat split; try lia. done.
Qed.

(** ** Content of a storage *)
Definition ent (sg : storage) : list (Z * envelope) := inorder (av_root (sg_tree sg)).

(** What is left of a full storage after the swap eviction *)
Definition base_of (max : Z) (l : list (Z * envelope)) : list (Z * envelope) :=
  if max <=? Z.of_nat (length l) then tail l else l.

Lemma sorted_tail {V} (l : list (Z * V)) : sorted l -> sorted (tail l).
Proof. destruct l as [|[k v] l]; simpl; [done|]. by intros [_ ?]. Qed.


Definition entries (s : store) (src : string) : list (Z * envelope) :=
  match st_index s !! src with Some sg => ent sg | None => [] end.

Definition meta_of (s : store) (src : string) : meta_info :=
  match st_index s !! src with Some sg => sg_meta sg | None => meta_zero end.

Lemma put_env_spec e src now s :
  1 <= st_max s ->
  (∀ sg, st_index s !! src = Some sg -> avl_ok (sg_tree sg)) ->
  let l := entries s src in
  let base := base_of (st_max s) l in
  let full := st_max s <=? Z.of_nat (length l) in
  ∃ f sg', 
    0 <= f <= Z.max 0 (st_fudge s) ∧
    (∀ i, 0 <= i < f -> wrap64 (e_ts e + i) ∈ base.*1) ∧
    (f < Z.max 0 (st_fudge s) -> wrap64 (e_ts e + f) ∉ base.*1) ∧
    avl_ok (sg_tree sg') ∧
    ent sg' = linsert (wrap64 (e_ts e + f)) e base ∧
    m_expired (sg_meta sg') = m_expired (meta_of s src) + (if full then 1 else 0) ∧
    m_newest (sg_meta sg') = Z.max (m_newest (meta_of s src)) (e_ts e) ∧
    (∃ e0 l0, ent sg' = (m_oldest (sg_meta sg'), e0) :: l0) ∧
    let cnt := if full then st_count s else wrap64 (st_count s + 1) in
    let so := Z.min (m_oldest (sg_meta sg')) (st_oldest s) in
    put_env e src now s = Some (mk_store (<[src := sg']> (st_index s)) cnt so (st_max s) (st_fudge s)
      (st_ingress s + 1) (st_egress s) (st_expired s + (if full then 1 else 0))
      (if full then st_size s else cnt) (cache_period now so)).
Proof.
  intros Hmax Hok l base full.
  unfold put_env. set (sg0 := match st_index s !! src with Some sg => sg | None => mk_storage meta_zero avl_new end).
  set (s1 := match st_index s !! src with Some _ => add_ingress 1 s | None => set_index (<[src:=sg0]>) (add_ingress 1 s) end).
  assert (Hg : get_or_init src (add_ingress 1 s) = (s1, sg0)).
  { unfold get_or_init, s1, sg0. simpl. by destruct (st_index s !! src). }
  rewrite Hg.
  assert (Hok0 : avl_ok (sg_tree sg0)).
  { unfold sg0. destruct (st_index s !! src) eqn:E; [by apply Hok|apply avl_ok_new]. }
  assert (Hl : l = ent sg0).
  { unfold l, entries, sg0. by destruct (st_index s !! src). }
  assert (Hm : meta_of s src = sg_meta sg0).
  { unfold meta_of, sg0. by destruct (st_index s !! src). }
  assert (Hsz : av_size (sg_tree sg0) = Z.of_nat (length l)).
  { rewrite Hl. apply Hok0. }
  assert (Hs1 : ∀ x, <[src:=x]> (st_index s1) = <[src:=x]> (st_index s)).
  { intros x. unfold s1. destruct (st_index s !! src); simpl; [done|]. by rewrite insert_insert. }
  assert (Hmax1 : st_max s1 = st_max s) by (unfold s1; by destruct (st_index s !! src)).
  unfold insert_or_swap. rewrite Hmax1, Hsz. fold full.
  (* the storage after the eviction *)
  assert (Hev : ∃ sg1 s2,
    (if full then
       '(k, _) ← avl_left (sg_tree sg0);
       t ← avl_remove k (sg_tree sg0);
       let m := sg_meta sg0 in
       Some (mk_storage (mk_meta (m_count m) (m_expired m + 1) (m_oldest m) (m_newest m)) t,
             add_expired 1 s1)
     else
       let c := wrap64 (st_count s1 + 1) in
       Some (sg0, set_size c (set_count c s1))) = Some (sg1, s2) ∧
    avl_ok (sg_tree sg1) ∧ ent sg1 = base ∧
    m_expired (sg_meta sg1) = m_expired (sg_meta sg0) + (if full then 1 else 0) ∧
    m_newest (sg_meta sg1) = m_newest (sg_meta sg0) ∧
    s2 = (if full then add_expired 1 s1
          else set_size (wrap64 (st_count s1 + 1)) (set_count (wrap64 (st_count s1 + 1)) s1))).
  { unfold base, base_of. fold full. destruct full eqn:Hfull.
    - unfold ent in Hl. destruct l as [|[k v] l'] eqn:El.
      { simpl in Hfull. subst full. simpl in Hfull. lia. }
      rewrite avl_left_ok, <-Hl. cbn [head mbind option_bind].
      destruct (avl_remove_head k v l' (sg_tree sg0) Hok0 (eq_sym Hl)) as (t' & -> & Hok' & Hi').
      cbn [mbind option_bind]. eexists _, _. split; [reflexivity|]. cbn. repeat split; auto; apply Hok'.
    - eexists _, _. split; [reflexivity|]. repeat split; auto; try apply Hok0. lia. }
  destruct Hev as (sg1 & s2 & Eev & Hok1 & Hent1 & Hexp1 & Hnew1 & Hs2).
  match goal with |- context [mbind ?F (if full then ?a else ?b)] =>
    change (if full then a else b) with
    (if full then
       '(k, _) ← avl_left (sg_tree sg0);
       t ← avl_remove k (sg_tree sg0);
       let m := sg_meta sg0 in
       Some (mk_storage (mk_meta (m_count m) (m_expired m + 1) (m_oldest m) (m_newest m)) t,
             add_expired 1 s1)
     else
       let c := wrap64 (st_count s1 + 1) in
       Some (sg0, set_size c (set_count c s1))) end.
  rewrite Eev. cbn [mbind option_bind].
  assert (Hfud : st_fudge s1 = st_fudge s) by (unfold s1; by destruct (st_index s !! src)).
  rewrite Hfud.
  pose proof (find_fudge_spec (Z.to_nat (st_fudge s)) 0 (e_ts e) (sg_tree sg1) Hok1) as (F1 & F2 & F3).
  set (f := find_fudge _ _ _ _) in *.
  destruct (avl_put_ok (wrap64 (e_ts e + f)) e (sg_tree sg1) Hok1) as (t2 & Ep & Hok2 & Hi2).
  rewrite Ep. cbn [mbind option_bind]. rewrite avl_left_ok, Hi2.
  destruct (linsert (wrap64 (e_ts e + f)) e (inorder (av_root (sg_tree sg1)))) as [|[ko eo] lo] eqn:Eli.
  { exfalso. apply (f_equal length) in Eli. rewrite linsert_length in Eli by apply Hok1.
    destruct (has_key _ _) eqn:Ek; simpl in Eli; [|lia].
    apply has_key_true in Ek. apply nil_length_inv in Eli. rewrite Eli in Ek. by inversion Ek. }
  cbn [head mbind option_bind].
  exists f. eexists (mk_storage (mk_meta (m_count (sg_meta sg1)) (m_expired (sg_meta sg1)) ko
      (if m_newest (sg_meta sg1) <? e_ts e then e_ts e else m_newest (sg_meta sg1))) t2).
  rewrite <-Hent1. unfold ent at 1 2 3. 
  split; [lia|]. split; [intros; apply F2; lia|]. split; [intros; apply F3; lia|].
  split; [done|]. split; [unfold ent; cbn; rewrite Hi2; done|].
  cbn [sg_meta m_expired m_newest m_oldest].
  split; [rewrite Hm; lia|].
  split; [rewrite Hm, Hnew1; destruct (Z.ltb_spec (m_newest (sg_meta sg0)) (e_ts e)); lia|].
  split; [unfold ent; cbn; rewrite Hi2; eauto|].
  f_equal.
  assert (Eso : ∀ a b, (if a <? b then a else b) = Z.min a b).
  { intros a b. destruct (Z.ltb_spec a b); lia. }
  rewrite Eso. subst s2.
  unfold s1. destruct full; destruct (st_index s !! src); cbn;
    unfold set_period, set_oldest, set_index, set_size, set_count, add_expired, add_ingress; cbn;
    f_equal; rewrite ?insert_insert; auto; lia.
Qed.
