(** Invariants of the store over histories; truncation. *)
From stdpp Require Import prelude gmap strings.
From Coq Require Import ZifyBool ZifyNat.
From Verif.Base Require Import GoInt Envelope.
From Verif.Store Require Import Avl AvlProofs GoHeap GoHeapProofs Model Spec ProofsBase.
Open Scope Z_scope.

Lemma stored_entries s src : stored s src = entries s src.
Proof. done. Qed.

(** ** Permutation facts about all_stored *)
Definition all_of (m : gmap string storage) : list (string * (Z * envelope)) :=
  '(src, sg) ← map_to_list m; pair src <$> ent sg.

Lemma all_stored_of s : all_stored s = all_of (st_index s).
Proof. done. Qed.

Global Instance bind_perm_proper {A B} (f : A -> list B) : Proper ((≡ₚ) ==> (≡ₚ)) (mbind f).
Proof. intros x y H. by apply bind_Permutation. Qed.

Lemma all_of_insert m src sg :
  m !! src = None -> all_of (<[src:=sg]> m) ≡ₚ (pair src <$> ent sg) ++ all_of m.
Proof. intros Hn. unfold all_of. by rewrite map_to_list_insert by done. Qed.

Lemma all_of_delete m src sg :
  m !! src = Some sg -> all_of m ≡ₚ (pair src <$> ent sg) ++ all_of (delete src m).
Proof.
  intros Hs. rewrite <-(insert_delete m src sg) at 1 by done.
  apply all_of_insert. apply lookup_delete.
Qed.

Lemma all_of_insert' m src sg :
  all_of (<[src:=sg]> m) ≡ₚ (pair src <$> ent sg) ++ all_of (delete src m).
Proof. rewrite <-insert_delete_insert. apply all_of_insert. apply lookup_delete. Qed.

Lemma all_of_entries s src :
  all_stored s ≡ₚ (pair src <$> stored s src) ++ all_of (delete src (st_index s)).
Proof.
  rewrite all_stored_of. unfold stored. destruct (st_index s !! src) eqn:E.
  - by apply all_of_delete.
  - simpl. by rewrite delete_notin.
Qed.

Lemma elem_of_all_of m src p :
  (src, p) ∈ all_of m ↔ ∃ sg, m !! src = Some sg ∧ p ∈ ent sg.
Proof.
  unfold all_of. rewrite elem_of_list_bind. split.
  - intros ([src' sg] & Hin & Hl). apply elem_of_map_to_list in Hl.
    apply elem_of_list_fmap in Hin as (p' & [= -> ->] & Hp). eauto.
  - intros (sg & Hl & Hp). exists (src, sg). split; [|by apply elem_of_map_to_list].
    apply elem_of_list_fmap. eauto.
Qed.

(** ** The structural invariant *)
Record inv (s : store) : Prop := {
  inv_max : 1 <= st_max s;
  inv_tree src sg : st_index s !! src = Some sg -> avl_ok (sg_tree sg);
  inv_cap src sg : st_index s !! src = Some sg -> Z.of_nat (length (ent sg)) <= st_max s;
  inv_head src sg : st_index s !! src = Some sg -> ∃ e l, ent sg = (m_oldest (sg_meta sg), e) :: l
}.

Lemma inv_new m : 1 <= m -> inv (new_store m).
Proof. intros. split; simpl; auto; intros ? ? H'; by rewrite lookup_empty in H'. Qed.

Lemma base_of_length max l : 1 <= max -> Z.of_nat (length l) <= max -> Z.of_nat (length (base_of max l)) < max.
Proof.
  intros. unfold base_of. destruct (Z.leb_spec max (Z.of_nat (length l))); [|lia].
  destruct l; simpl in *; lia.
Qed.

Lemma base_of_sorted max l : sorted l -> sorted (base_of max l).
Proof. intros. unfold base_of. destruct (_ <=? _); auto. by apply sorted_tail. Qed.

Lemma inv_sorted s src : inv s -> sorted (entries s src).
Proof.
  intros Hi. unfold entries. destruct (st_index s !! src) eqn:E; [|done].
  by apply (inv_tree s Hi) in E as [_ [? _]].
Qed.

Lemma put_inv e src now s :
  inv s -> ∃ s', put_env e src now s = Some s' ∧ inv s'.
Proof.
  intros Hi.
  destruct (put_env_spec e src now s (inv_max s Hi) (inv_tree s Hi src))
    as (f & sg' & _ & _ & _ & Hok & Hent & _ & _ & Hhd & E).
  eexists. split; [exact E|]. split; simpl.
  - apply Hi.
  - intros src' sg. destruct (decide (src' = src)) as [->|].
    + rewrite lookup_insert. by intros [= <-].
    + rewrite lookup_insert_ne by done. apply Hi.
  - intros src' sg. destruct (decide (src' = src)) as [->|].
    + rewrite lookup_insert. intros [= <-]. rewrite Hent.
      assert (Hc : Z.of_nat (length (entries s src)) <= st_max s).
      { unfold entries. destruct (st_index s !! src) eqn:Es; [by apply (inv_cap s Hi) in Es|].
        simpl. pose proof (inv_max s Hi). lia. }
      pose proof (base_of_length (st_max s) _ (inv_max s Hi) Hc).
      rewrite linsert_length by (apply base_of_sorted, inv_sorted; done).
      destruct (has_key _ _); lia.
    + rewrite lookup_insert_ne by done. apply Hi.
  - intros src' sg. destruct (decide (src' = src)) as [->|].
    + rewrite lookup_insert. intros [= <-]. done.
    + rewrite lookup_insert_ne by done. apply Hi.
Qed.

(** ** removeOldestEnvelope *)
Definition upd_fields (s : store) (c ex : Z) (i : gmap string storage) : store :=
  mk_store i c (st_oldest s) (st_max s) (st_fudge s) (st_ingress s) (st_egress s) ex (st_size s) (st_period s).

Lemma remove_oldest_spec src s sg k e l :
  avl_ok (sg_tree sg) -> st_index s !! src = Some sg -> ent sg = (k, e) :: l ->
  match l with
  | [] => remove_oldest src s =
      Some (upd_fields s (wrap64 (st_count s - 1)) (st_expired s + 1) (delete src (st_index s)), None)
  | (k', _) :: _ => ∃ t', avl_ok t' ∧ inorder (av_root t') = l ∧
      let m := sg_meta sg in
      remove_oldest src s =
      Some (upd_fields s (wrap64 (st_count s - 1)) (st_expired s + 1)
              (<[src := mk_storage (mk_meta (m_count m) (m_expired m + 1) k' (m_newest m)) t']> (st_index s)), Some k')
  end.
Proof.
  intros Hok Hs He. unfold remove_oldest. rewrite Hs. cbn [mbind option_bind].
  assert (Hsz : av_size (sg_tree sg) = Z.of_nat (S (length l))).
  { destruct Hok as (_ & _ & ->). unfold ent in He. by rewrite He. }
  rewrite Hsz. destruct (Z.eqb_spec (Z.of_nat (S (length l))) 0); [lia|].
  rewrite avl_left_ok. unfold ent in He. rewrite He. cbn [head mbind option_bind].
  destruct (avl_remove_head k e l (sg_tree sg) Hok He) as (t' & -> & Hok' & Hi'). cbn [mbind option_bind].
  assert (Hsz' : av_size t' = Z.of_nat (length l)) by (rewrite <-Hi'; apply Hok').
  rewrite Hsz'. destruct l as [|[k' e'] l'].
  - simpl. done.
  - destruct (Z.eqb_spec (Z.of_nat (length ((k', e') :: l'))) 0); [simpl in *; lia|].
    rewrite avl_left_ok, Hi'. cbn [head mbind option_bind]. eauto.
Qed.

(** ** The expiration heap *)
Definition head_of (p : string * storage) : option expiration :=
  match ent p.2 with [] => None | (k, _) :: _ => Some (k, p.1) end.
Definition heads (m : gmap string storage) : list expiration := omap head_of (map_to_list m).

Global Instance omap_perm_proper {A B} (f : A -> option B) : Proper ((≡ₚ) ==> (≡ₚ)) (omap f : list A -> list B).
Proof.
  intros x y H. induction H; simpl; auto.
  - destruct (f x); auto.
  - destruct (f x), (f y); auto. apply Permutation_swap.
  - etrans; eauto.
Qed.

Lemma heads_delete m src sg k e l :
  m !! src = Some sg -> ent sg = (k, e) :: l -> heads m ≡ₚ (k, src) :: heads (delete src m).
Proof.
  intros Hs He. unfold heads. rewrite <-(insert_delete m src sg) at 1 by done.
  rewrite map_to_list_insert by apply lookup_delete. simpl.
  unfold head_of at 1. simpl. by rewrite He.
Qed.

Lemma heads_insert m src sg k e l :
  ent sg = (k, e) :: l -> heads (<[src:=sg]> m) ≡ₚ (k, src) :: heads (delete src m).
Proof.
  intros He. rewrite <-insert_delete_insert. unfold heads.
  rewrite map_to_list_insert by apply lookup_delete. simpl.
  unfold head_of at 1. simpl. by rewrite He.
Qed.

Lemma elem_of_heads m k src :
  (k, src) ∈ heads m ↔ ∃ sg e l, m !! src = Some sg ∧ ent sg = (k, e) :: l.
Proof.
  unfold heads. rewrite elem_of_list_omap. split.
  - intros ([src' sg] & Hin & Hh). apply elem_of_map_to_list in Hin. unfold head_of in Hh. simpl in Hh.
    destruct (ent sg) as [|[k' e] l] eqn:E; [done|]. injection Hh as -> ->. eauto.
  - intros (sg & e & l & Hl & He). exists (src, sg). split; [by apply elem_of_map_to_list|].
    unfold head_of. simpl. by rewrite He.
Qed.

(** ** range_order enumerates the index *)
Lemma range_order_perm pri m : range_order pri m ≡ₚ map_to_list m.
Proof.
  apply NoDup_Permutation.
  - unfold range_order. apply NoDup_app. split; [|split].
    + induction (NoDup_remove_dups pri) as [|k l Hn Hd IH]; simpl; [constructor|].
      destruct (m !! k) as [sg|] eqn:E; simpl; auto. constructor; auto.
      rewrite elem_of_list_omap. intros (k' & Hin & Hk'). destruct (m !! k'); simpl in *; [|done].
      injection Hk' as -> ->. done.
    + intros [k sg]. rewrite elem_of_list_omap, elem_of_list_filter. simpl.
      intros (k' & Hin & Hk') [Hn _]. destruct (m !! k'); simpl in *; [|done].
      injection Hk' as -> ->. apply Hn. by apply elem_of_remove_dups.
    + apply NoDup_filter, NoDup_map_to_list.
  - apply NoDup_map_to_list.
  - intros [k sg]. unfold range_order. rewrite elem_of_app, elem_of_list_omap, elem_of_list_filter. simpl.
    rewrite elem_of_map_to_list. split.
    + intros [(k' & Hin & Hk')|[_ ?]]; [|done]. destruct (m !! k') eqn:E; simpl in *; [|done].
      injection Hk' as -> ->. done.
    + intros Hm. destruct (decide (k ∈ pri)); [left|right; done].
      exists k. rewrite elem_of_remove_dups. split; auto. by rewrite Hm.
Qed.

Lemma build_heap_spec l (h : list expiration) :
  (∀ p, p ∈ l -> ent p.2 ≠ []) -> heap_ok fst (length h) h ->
  ∃ h', build_heap l h = Some h' ∧ h' ≡ₚ omap head_of l ++ h ∧ heap_ok fst (length h') h'.
Proof.
  revert h. induction l as [|[src sg] l IH]; intros h Hne Hok; cbn [build_heap].
  - eexists. split; [done|]. done.
  - destruct (ent sg) as [|[k e] le] eqn:E.
    { exfalso. apply (Hne (src, sg)); [by left|done]. }
    rewrite avl_left_ok. unfold ent in E. rewrite E. cbn [head mbind option_bind].
    destruct (IH (heap_push fst h (k, src))) as (h' & Eh & Hp & Hok').
    + intros p Hp. apply Hne. by right.
    + pose proof (heap_push_perm fst h (k, src)) as Hpp. apply Permutation_length in Hpp. simpl in Hpp.
      rewrite Hpp. by apply heap_push_ok.
    + exists h'. split; [done|]. split; [|done]. rewrite Hp, heap_push_perm. simpl.
      unfold head_of at 2. simpl. unfold ent. rewrite E. by rewrite <-Permutation_middle.
Qed.

Lemma inv_remove s src sg k e l s' n :
  inv s -> st_index s !! src = Some sg -> ent sg = (k, e) :: l ->
  remove_oldest src s = Some (s', n) -> inv s'.
Proof.
  intros Hi Hs He Er. pose proof (remove_oldest_spec src s sg k e l (inv_tree s Hi _ _ Hs) Hs He) as Hr.
  pose proof (inv_cap s Hi _ _ Hs) as Hc.
  destruct l as [|[k' e'] l'].
  - rewrite Er in Hr. injection Hr as -> ->. split; simpl; try apply Hi;
      intros src' sg' Hl; apply lookup_delete_Some in Hl as [_ Hl]; eauto using inv_tree, inv_cap, inv_head.
  - destruct Hr as (t' & Hok & Hin & Hr). rewrite Er in Hr. injection Hr as -> ->.
    split; simpl; try apply Hi; intros src' sg' Hl;
      (destruct (decide (src' = src)) as [->|];
       [rewrite lookup_insert in Hl; injection Hl as <-|rewrite lookup_insert_ne in Hl by done]).
    + done.
    + by apply (inv_tree s Hi) in Hl.
    + unfold ent in *; simpl in *. rewrite Hin. rewrite He in Hc. simpl in *. lia.
    + by apply (inv_cap s Hi) in Hl.
    + unfold ent; simpl. rewrite Hin. eauto.
    + by apply (inv_head s Hi) in Hl.
Qed.

(** What truncation does to one source *)
Definition shrunk (s s' : store) (src : string) : Prop :=
  match st_index s' !! src with
  | None => True
  | Some sg' => ∃ sg r, st_index s !! src = Some sg ∧ ent sg = r ++ ent sg' ∧
      m_expired (sg_meta sg') = m_expired (sg_meta sg) + Z.of_nat (length r) ∧
      m_newest (sg_meta sg') = m_newest (sg_meta sg)
  end.

Lemma shrunk_refl s src : shrunk s s src.
Proof. unfold shrunk. destruct (st_index s !! src) as [sg|] eqn:E; [|done]. exists sg, []. simpl. repeat split; auto. lia. Qed.

Lemma shrunk_trans s1 s2 s3 src : shrunk s1 s2 src -> shrunk s2 s3 src -> shrunk s1 s3 src.
Proof.
  unfold shrunk. destruct (st_index s3 !! src) as [sg3|]; [|done].
  intros H1 (sg2 & r2 & E2 & Hr2 & Hx2 & Hn2). rewrite E2 in H1.
  destruct H1 as (sg1 & r1 & E1 & Hr1 & Hx1 & Hn1).
  exists sg1, (r1 ++ r2). rewrite Hr1, Hr2, app_assoc, app_length. repeat split; auto; try lia; congruence.
Qed.

Definition same_conf (s s' : store) : Prop :=
  st_max s' = st_max s ∧ st_fudge s' = st_fudge s ∧ st_ingress s' = st_ingress s ∧ st_egress s' = st_egress s.

Lemma wrap64_sub_shift a b : wrap64 (wrap64 a - b) = wrap64 (a - b).
Proof.
  unfold wrap64. f_equal.
  replace ((a + 2 ^ 63) mod 2 ^ 64 - 2 ^ 63 - b + 2 ^ 63) with ((a + 2 ^ 63) mod 2 ^ 64 + - b) by lia.
  rewrite Zplus_mod_idemp_l. f_equal. lia.
Qed.

Lemma prune_loop_spec n : ∀ h s,
  inv s -> h ≡ₚ heads (st_index s) -> heap_ok fst (length h) h ->
  (n <= length (all_stored s))%nat ->
  ∃ s' h' removed, prune_loop n h s = Some (s', h') ∧ inv s' ∧
    h' ≡ₚ heads (st_index s') ∧ heap_ok fst (length h') h' ∧
    all_stored s ≡ₚ removed ++ all_stored s' ∧ length removed = n ∧
    (∀ x y, x ∈ removed -> y ∈ all_stored s' -> x.2.1 <= y.2.1) ∧
    (n ≠ 0%nat -> st_count s' = wrap64 (st_count s - Z.of_nat n)) ∧
    (n = 0%nat -> st_count s' = st_count s) ∧
    st_expired s' = st_expired s + Z.of_nat n ∧
    same_conf s s' ∧ (∀ src, shrunk s s' src).
Proof.
  induction n as [|n IH]; intros h s Hi Hp Hok Hn; cbn [prune_loop].
  { exists s, h, []. do 6 (split; [done|]). split.
    { intros x y Hx. by inversion Hx. }
    do 2 (split; [done|]). split; [lia|]. split; [done|]. apply shrunk_refl. }
  (* the heap is not empty *)
  assert (Hne : h ≠ []).
  { intros ->. apply Permutation_nil in Hp. symmetry in Hp.
    destruct (all_stored s) as [|[src p] L] eqn:E; [simpl in Hn; lia|].
    assert (Hin : (src, p) ∈ all_of (st_index s)) by (rewrite <-all_stored_of, E; by left).
    apply elem_of_all_of in Hin as (sg & Hl & _).
    destruct (inv_head s Hi _ _ Hl) as (e & l & He).
    assert (Hh : (m_oldest (sg_meta sg), src) ∈ heads (st_index s)) by (apply elem_of_heads; eauto).
    rewrite <-Hp in Hh. by inversion Hh. }
  destruct (heap_pop_spec fst h Hok Hne) as ([k src] & h1 & -> & Hp1 & Hok1 & Hmin).
  cbn [mbind option_bind].
  assert (Hin : (k, src) ∈ heads (st_index s)) by (rewrite <-Hp, Hp1; by left).
  apply elem_of_heads in Hin as (sg & e & l & Hs & He).
  pose proof (inv_tree s Hi _ _ Hs) as Htree.
  assert (Hh1 : h1 ≡ₚ heads (delete src (st_index s))).
  { apply (Permutation_cons_inv (a := (k, src))). rewrite <-Hp1, Hp. by eapply heads_delete. }
  assert (Hmin_all : ∀ src' p, (src', p) ∈ all_stored s -> k <= p.1).
  { intros src' p. rewrite all_stored_of, elem_of_all_of. intros (sg' & Hl' & Hp').
    destruct (inv_head s Hi _ _ Hl') as (e' & l' & He').
    pose proof (inv_tree s Hi _ _ Hl') as (_ & Hsort & _). fold (ent sg') in Hsort. rewrite He' in Hsort, Hp'.
    destruct Hsort as [Hf _]. rewrite Forall_forall in Hf.
    assert (Hk' : m_oldest (sg_meta sg') <= p.1).
    { apply elem_of_cons in Hp' as [->|Hp']; [simpl; lia|]. apply Hf in Hp'. lia. }
    assert (Hkh : (m_oldest (sg_meta sg'), src') ∈ h).
    { rewrite Hp. apply elem_of_heads. eauto. }
    rewrite Hp1 in Hkh. apply elem_of_cons in Hkh as [[= <- <-]|Hkh]; [done|].
    rewrite Forall_forall in Hmin. apply Hmin in Hkh. simpl in Hkh. lia. }
  pose proof (all_of_delete _ _ _ Hs) as Hall. rewrite He in Hall. simpl in Hall.
  pose proof (remove_oldest_spec src s sg k e l Htree Hs He) as Hr.
  assert (Hrem : ∃ s1 nx, remove_oldest src s = Some (s1, nx) ∧
     st_count s1 = wrap64 (st_count s - 1) ∧ st_expired s1 = st_expired s + 1 ∧ same_conf s s1 ∧
     all_stored s ≡ₚ (src, (k, e)) :: all_stored s1 ∧
     (∀ src', shrunk s s1 src') ∧
     (match nx with Some k' => heap_push fst h1 (k', src) | None => h1 end) ≡ₚ heads (st_index s1)).
  { destruct l as [|[k' e'] l'].
    - eexists _, _. split; [exact Hr|]. simpl. do 4 (split; [done|]). split; [|done].
      intros src'. unfold shrunk. simpl. destruct (decide (src' = src)) as [->|].
      + by rewrite lookup_delete.
      + rewrite lookup_delete_ne by done. apply shrunk_refl.
    - destruct Hr as (t' & Hokt & Hit & Hr).
      assert (Het : ∀ m, ent (mk_storage m t') = (k', e') :: l') by (intros; exact Hit).
      eexists _, _. split; [exact Hr|]. simpl.
      do 3 (split; [done|]). split; [|split].
      + rewrite all_stored_of, Hall. constructor. rewrite all_stored_of. simpl. rewrite all_of_insert'.
        rewrite Het. done.
      + intros src'. unfold shrunk. simpl. destruct (decide (src' = src)) as [->|].
        * rewrite lookup_insert. exists sg, [(k, e)]. simpl. rewrite He, Het. done.
        * rewrite lookup_insert_ne by done. apply shrunk_refl.
      + rewrite heap_push_perm, Hh1. symmetry. eapply (heads_insert _ _ _ k' e' l'). apply Het. }
  destruct Hrem as (s1 & nx & Er & Hc1 & Hx1 & Hconf1 & Hall1 & Hshr1 & Hheap1).
  rewrite Er. cbn [mbind option_bind].
  assert (Hi1 : inv s1) by (eapply inv_remove; eauto).
  set (h2 := match nx with Some k' => heap_push fst h1 (k', src) | None => h1 end) in *.
  assert (Hok2 : heap_ok fst (length h2) h2).
  { unfold h2. destruct nx; [|done].
    pose proof (Permutation_length (heap_push_perm fst h1 (z, src))) as ->. by apply heap_push_ok. }
  assert (Hlen1 : (n <= length (all_stored s1))%nat).
  { apply Permutation_length in Hall1. simpl in Hall1. lia. }
  destruct (IH h2 s1 Hi1 Hheap1 Hok2 Hlen1)
    as (s' & h' & removed & El & Hi' & Hp' & Hok' & Hall' & Hlen' & Hle' & Hc' & Hc0' & Hx' & Hconf' & Hshr').
  exists s', h', ((src, (k, e)) :: removed).
  split. { unfold h2 in El. destruct nx; exact El. }
  split; [done|]. split; [done|]. split; [done|].
  split. { rewrite Hall1, Hall'. done. }
  split; [simpl; lia|].
  split.
  { intros x [src' p] Hx Hy. apply elem_of_cons in Hx as [->|Hx].
    - simpl. apply (Hmin_all src'). rewrite Hall1, Hall'. right. apply elem_of_app. by right.
    - by apply Hle'. }
  split.
  { intros _. destruct (decide (n = 0%nat)) as [->|Hn0].
    - rewrite Hc0' by done. rewrite Hc1. f_equal; lia.
    - rewrite Hc' by done. rewrite Hc1. rewrite wrap64_sub_shift. f_equal. lia. }
  split; [done|].
  split; [lia|].
  split. { unfold same_conf in *. intuition congruence. }
  intros src'. eapply shrunk_trans; eauto.
Qed.
