(** The store lemmas in the form used by the property files. *)
From stdpp Require Import prelude gmap strings.
From Coq Require Import ZifyBool ZifyNat Sorted.
From Verif.Base Require Import GoInt Envelope.
From Verif.Store Require Import Avl AvlProofs GoHeap GoHeapProofs Model Spec ProofsBase ProofsHist ProofsAcct ProofsGet ProofsRoom.
Open Scope Z_scope.

Lemma capacity m ops s src :
  1 <= m -> run (new_store m) ops = Some s ->
  Z.of_nat (length (stored s src)) <= m ∧
  ∀ mi, meta s !! src = Some mi -> m_count mi = Z.of_nat (length (stored s src)).
Proof.
  intros Hm Hr. destruct (run_inv ops _ _ (inv_new m Hm) Hr) as [Hi Hmx]. simpl in Hmx. split.
  - unfold stored. destruct (st_index s !! src) as [sg|] eqn:E; [|simpl; lia].
    rewrite <-Hmx. apply (inv_cap s Hi _ _ E).
  - intros mi. unfold meta, stored. rewrite lookup_fmap. destruct (st_index s !! src) as [sg|] eqn:E; [|done].
    simpl. intros [= <-]. simpl. apply (inv_tree s Hi _ _ E).
Qed.

Lemma put_index_ne e src now s s' src' :
  put_env e src now s = Some s' -> src' ≠ src -> st_index s' !! src' = st_index s !! src'.
Proof.
  unfold put_env, get_or_init. intros E Hne.
  assert (Hins : ∀ sg s1, insert_or_swap src sg e now s1 = Some s' -> st_index s' !! src' = st_index s1 !! src').
  { clear E. intros sg s1. unfold insert_or_swap. intros E.
    destruct (if st_max s1 <=? av_size (sg_tree sg) then _ else _) as [[sg1 s2]|] eqn:E1; [|done].
    cbn [mbind option_bind] in E.
    assert (Hs2 : st_index s2 = st_index s1).
    { destruct (st_max s1 <=? av_size (sg_tree sg)); [|by simplify_eq].
      destruct (avl_left (sg_tree sg)) as [[]|]; [|done]. cbn [mbind option_bind] in E1.
      destruct (avl_remove z (sg_tree sg)); [|done]. cbn [mbind option_bind] in E1. by simplify_eq. }
    destruct (avl_put _ e (sg_tree sg1)) as [t2|]; [|done]. cbn [mbind option_bind] in E.
    destruct (avl_left t2) as [[]|]; [|done]. cbn [mbind option_bind] in E. injection E as <-. simpl.
    rewrite lookup_insert_ne by done. by rewrite Hs2. }
  cbn [st_index add_ingress] in E. destruct (st_index s !! src) as [sg|] eqn:Es.
  - apply Hins in E. exact E.
  - apply Hins in E. simpl in E. by rewrite lookup_insert_ne in E.
Qed.

Lemma isolation e src now s s' src' q :
  put_env e src now s = Some s' -> src' ≠ src ->
  get_env src' q s' = get_env src' q s ∧ meta s' !! src' = meta s !! src'.
Proof.
  intros E Hne. pose proof (put_index_ne _ _ _ _ _ _ E Hne) as H.
  unfold get_env, meta. rewrite !lookup_fmap, H. done.
Qed.


Lemma sorted_key_sorted l : sorted l ↔ key_sorted l.
Proof.
  unfold key_sorted. induction l as [|[k e] l IH]; simpl.
  - split; [constructor|done].
  - split.
    + intros [Hf Hs]. constructor; [by apply IH|done].
    + intros Hs. inversion Hs; subst. split; [done|by apply IH].
Qed.

Lemma put_stores m ops s e src now :
  1 <= m -> run (new_store m) ops = Some s -> room s src e ->
  ∃ s' f, put_env e src now s = Some s' ∧ 0 <= f < 4000 ∧
    let k := wrap64 (e_ts e + f) in
    let kept := if m <=? Z.of_nat (length (stored s src)) then tail (stored s src) else stored s src in
    k ∉ kept.*1 ∧ (∀ i, 0 <= i < f -> wrap64 (e_ts e + i) ∈ kept.*1) ∧
    stored s' src ≡ₚ (k, e) :: kept ∧ key_sorted (stored s' src) ∧ key_sorted (stored s src) ∧
    ∀ src', src' ≠ src -> stored s' src' = stored s src'.
Proof.
  intros Hm Hr Hroom. destruct (run_inv ops _ _ (inv_new m Hm) Hr) as [Hi Hmx]. simpl in Hmx.
  assert (Hfu : st_fudge s = 4000).
  { clear Hroom Hi Hmx. assert (H : ∀ s0 s, inv s0 -> run s0 ops = Some s -> st_fudge s = st_fudge s0).
    { clear. induction ops as [|o ops IH]; intros s0 s Hi; simpl; [by intros [= <-]|].
      destruct (step s0 o) as [s1|] eqn:E; [|done]. simpl. intros Hr.
      rewrite <-(step_fudge s0 o s1 Hi E). apply IH; [|done]. by destruct (step_inv _ _ _ Hi E). }
    rewrite (H _ _ (inv_new m Hm) Hr). done. }
  destruct (put_env_spec e src now s (inv_max s Hi) (inv_tree s Hi src))
      as (f & sg' & Hf & Hocc & Hfree & Hok & Hent & _ & _ & _ & E).
  rewrite Hfu in *. destruct Hroom as (f0 & Hf0 & Hroom).
  assert (Hf4 : f < 4000).
  { destruct (decide (f < 4000)); [done|]. exfalso. apply Hroom. apply Hocc. lia. }
  assert (Hs' : ∀ src', src' ≠ src -> stored (mk_store (<[src := sg']> (st_index s))
       (if st_max s <=? Z.of_nat (length (entries s src)) then st_count s else wrap64 (st_count s + 1))
       (Z.min (m_oldest (sg_meta sg')) (st_oldest s)) (st_max s) 4000 (st_ingress s + 1) (st_egress s)
       (st_expired s + (if st_max s <=? Z.of_nat (length (entries s src)) then 1 else 0))
       (if st_max s <=? Z.of_nat (length (entries s src)) then st_size s
        else if st_max s <=? Z.of_nat (length (entries s src)) then st_count s else wrap64 (st_count s + 1))
       (cache_period now (Z.min (m_oldest (sg_meta sg')) (st_oldest s)))) src' = stored s src').
  { intros src' Hne. by rewrite stored_insert_ne. }
  eexists _, f. split; [exact E|]. split; [lia|]. cbn zeta.
  change (entries s src) with (stored s src) in *. unfold base_of in *. rewrite Hmx in *.
  set (kept := if m <=? _ then tail (stored s src) else stored s src) in *.
  assert (Hnk : wrap64 (e_ts e + f) ∉ kept.*1) by (apply Hfree; lia).
  assert (Hks : sorted kept).
  { pose proof (inv_sorted s src Hi) as Hs. unfold kept. destruct (_ <=? _); [|done].
    change (entries s src) with (stored s src) in Hs. destruct (stored s src) as [|[]]; simpl in *; tauto. }
  split; [done|]. split; [done|].
  rewrite stored_insert_eq, Hent. split; [|split; [|split]].
  - apply linsert_perm. done.
  - apply sorted_key_sorted, sorted_linsert. done.
  - apply sorted_key_sorted, inv_sorted; done.
  - exact Hs'.
Qed.

Lemma history_ok m ops :
  1 <= m -> uncrowded m ops -> Forall op_ok ops -> Z.of_nat (length ops) < 2^63 ->
  ∃ s, run (new_store m) ops = Some s ∧ inv s ∧ acct s ∧ st_ingress s <= Z.of_nat (length ops).
Proof.
  intros Hm Hu Hop Hl.
  destruct (run_acct ops (new_store m) (inv_new m Hm) (acct_new m) Hop) as (s & E & Hi & Ha & Hin).
  - by apply uncrowded_roomy.
  - simpl. lia.
  - exists s. split; [done|]. split; [done|]. split; [done|]. simpl in Hin. lia.
Qed.

Lemma known_stored s src : inv s -> known s src ↔ stored s src ≠ [].
Proof.
  intros Hi. unfold known, stored. destruct (st_index s !! src) as [sg|] eqn:E.
  - destruct (inv_head s Hi _ _ E) as (e0 & l0 & He). unfold ent in He. rewrite He. split; eauto.
  - split; [intros [? ?]; done|done].
Qed.

Lemma truncation m ops s q pri now :
  1 <= m -> uncrowded m ops -> Forall op_ok ops -> Z.of_nat (length ops) < 2^63 ->
  run (new_store m) ops = Some s ->
  ∃ s' removed, truncate q pri now s = Some s' ∧
    all_stored s ≡ₚ removed ++ all_stored s' ∧
    Z.of_nat (length removed) = Z.max 0 (Z.min q (Z.of_nat (length (all_stored s)))) ∧
    (∀ x y, x ∈ removed -> y ∈ all_stored s' -> x.2.1 <= y.2.1) ∧
    (∀ src, ∃ r, stored s src = r ++ stored s' src) ∧
    (∀ src, known s' src ↔ stored s' src ≠ []).
Proof.
  intros Hm Hu Hop Hl Hr. destruct (history_ok m ops Hm Hu Hop Hl) as (s0 & E & Hi & Ha & Hin).
  rewrite Hr in E. injection E as <-.
  destruct (truncate_spec q pri now s Hi) as (s' & removed & E' & Hi' & Hall & Hlen & Hord & _).
  { destruct Ha. lia. } { destruct Ha. lia. }
  exists s', removed. split; [done|]. split; [done|]. rewrite <-(ac_count s Ha). split; [done|]. split; [done|].
  split; [by eapply truncate_sub|]. intros src. by apply known_stored.
Qed.

Lemma meta_accounting m ops s g src :
  1 <= m -> uncrowded m ops -> Forall op_ok ops -> Z.of_nat (length ops) < 2^63 ->
  run_written (new_store m) (fun _ => []) ops = Some (s, g) ->
  match meta s !! src with
  | None => stored s src = [] ∧ g src = []
  | Some mi =>
      m_count mi = Z.of_nat (length (stored s src)) ∧
      (∃ e l, stored s src = (m_oldest mi, e) :: l) ∧
      m_newest mi = newest_of (g src) ∧
      m_count mi + m_expired mi = Z.of_nat (length (g src))
  end.
Proof.
  intros Hm Hu Hop Hl Hr.
  destruct (run_meta ops (new_store m) (fun _ => []) s g (inv_new m Hm) (acct_new m) Hop) as [Hi Hmeta]; auto.
  { by apply uncrowded_roomy. }
  { intros x. simpl. by rewrite lookup_empty. }
  specialize (Hmeta src). unfold meta, stored. rewrite lookup_fmap.
  destruct (st_index s !! src) as [sg|] eqn:E; simpl; [|auto].
  destruct (inv_tree s Hi _ _ E) as (_ & _ & Hsz). rewrite Hsz.
  destruct Hmeta as [H1 H2]. split; [done|]. split; [apply (inv_head s Hi _ _ E)|]. split; [done|exact H1].
Qed.

(** ** The index *)
Section idx.
Context {V : Type}.
Lemma avl_height (t : tree V) h : avl t h -> height t = h.
Proof. induction 1; simpl; lia. Qed.

Lemma avl_size_bound (t : tree V) h : avl t h -> 2 ^ Z.of_nat h <= (Z.of_nat (length (inorder t)) + 1) ^ 2.
Proof.
  intros H. induction H as [|k v l r h Hl IHl Hr IHr|k v l r h Hl IHl Hr IHr|k v l r h Hl IHl Hr IHr]; simpl inorder.
  - simpl. lia.
  - rewrite app_length. simpl length. rewrite !Nat2Z.inj_succ, Z.pow_succ_r by lia. nia.
  - rewrite app_length. simpl length. rewrite !Nat2Z.inj_succ, !Z.pow_succ_r in * by lia. nia.
  - rewrite app_length. simpl length. rewrite !Nat2Z.inj_succ, !Z.pow_succ_r in * by lia. nia.
Qed.

Lemma lget_linsert k (v : V) l x : sorted l -> lget x (linsert k v l) = if decide (x = k) then Some v else lget x l.
Proof.
  induction l as [|[k' v'] l IH]; simpl.
  - intros _. case_decide; destruct (Z.eqb_spec x k); congruence.
  - intros [Hf Hs]. destruct (Z.compare_spec k k') as [->|Hlt|Hgt]; simpl.
    + case_decide; destruct (Z.eqb_spec x k'); congruence.
    + case_decide; destruct (Z.eqb_spec x k); congruence.
    + rewrite IH by done. case_decide; destruct (Z.eqb_spec x k'); try congruence. lia.
Qed.

Lemma lget_lremove k (l : list (Z * V)) x : sorted l -> lget x (lremove k l) = if decide (x = k) then None else lget x l.
Proof.
  induction l as [|[k' v'] l IH]; simpl.
  - intros _. by case_decide.
  - intros [Hf Hs]. destruct (Z.eqb_spec k k') as [->|Hne]; simpl.
    + case_decide; [subst; by apply lget_notin|]. destruct (Z.eqb_spec x k'); congruence.
    + rewrite IH by done. case_decide; destruct (Z.eqb_spec x k'); congruence.
Qed.

Definition repr (t : avltree V) (m : gmap Z V) : Prop :=
  avl_ok t ∧ ∀ k, lget k (inorder (av_root t)) = m !! k.

Lemma lget_elem k (v : V) l : sorted l -> lget k l = Some v ↔ (k, v) ∈ l.
Proof.
  induction l as [|[k' v'] l IH]; simpl.
  - intros _. split; [done|]. intros H. by inversion H.
  - intros [Hf Hs]. rewrite elem_of_cons. destruct (Z.eqb_spec k k') as [->|Hne].
    + split; [intros [= ->]; by left|]. intros [[= ->]|Hin]; [done|].
      rewrite Forall_forall in Hf. specialize (Hf _ Hin). simpl in Hf. lia.
    + rewrite IH by done. split; [by right|]. intros [[= -> ->]|Hin]; done.
Qed.

Lemma sorted_NoDup l : sorted (V:=V) l -> NoDup l.*1.
Proof.
  induction l as [|[k v] l IH]; simpl; [constructor|]. intros [Hf Hs]. constructor; [|by apply IH].
  intros Hin. apply elem_of_list_fmap in Hin as ([k' v'] & -> & Hin). rewrite Forall_forall in Hf.
  specialize (Hf _ Hin). simpl in Hf. lia.
Qed.

Lemma repr_perm t m : repr t m -> inorder (av_root t) ≡ₚ map_to_list m.
Proof.
  intros [(Hh & Hs & Hsz) Hl]. apply NoDup_Permutation.
  - eapply NoDup_fmap_1. by apply sorted_NoDup.
  - apply NoDup_map_to_list.
  - intros [k v]. rewrite elem_of_map_to_list, <-Hl. symmetry. by apply lget_elem.
Qed.

Lemma tree_run_spec ops : ∀ t m, repr t m -> ∃ t', tree_run t ops = Some t' ∧ repr t' (map_run m ops).
Proof.
  induction ops as [|[k v|k] ops IH]; intros t m [Hok Hl]; simpl; [eexists; split; [done|split; done]|..].
  - destruct (avl_put_ok k v t Hok) as (t' & -> & Hok' & Hi'). simpl. apply IH. split; [done|].
    intros x. rewrite Hi', lget_linsert by apply Hok. case_decide as Hx; [subst; by rewrite lookup_insert|].
    by rewrite lookup_insert_ne.
  - destruct (avl_remove_ok k t Hok) as (t' & -> & Hok' & Hi'). simpl. apply IH. split; [done|].
    intros x. rewrite Hi', lget_lremove by apply Hok. case_decide as Hx; [subst; by rewrite lookup_delete|].
    by rewrite lookup_delete_ne.
Qed.

Lemma index_ok (ops : list (tree_op V)) :
  ∃ t, tree_run avl_new ops = Some t ∧
    StronglySorted (fun a b => a.1 < b.1) (inorder (av_root t)) ∧
    inorder (av_root t) ≡ₚ map_to_list (map_run ∅ ops) ∧
    (∀ k, avl_get k t = map_run ∅ ops !! k) ∧
    avl_left t = head (inorder (av_root t)) ∧
    av_size t = Z.of_nat (size (map_run ∅ ops)) ∧
    2 ^ Z.of_nat (height (av_root t)) <= (av_size t + 1) ^ 2.
Proof.
  destruct (tree_run_spec ops avl_new ∅) as (t & E & Hr).
  { split; [apply avl_ok_new|]. intros k. simpl. by rewrite lookup_empty. }
  exists t. split; [done|]. pose proof (repr_perm _ _ Hr) as Hp. destruct Hr as [(Hh & Hs & Hsz) Hl].
  split; [|split; [done|split; [|split; [|split]]]].
  - clear -Hs. induction (inorder (av_root t)) as [|[k v] l IH]; [constructor|]. destruct Hs as [Hf Hs].
    constructor; auto.
  - intros k. rewrite avl_get_ok; [apply Hl|]. done.
  - apply left_inorder.
  - rewrite Hsz, (Permutation_length Hp). done.
  - rewrite Hsz. destruct Hh as [h Ha]. rewrite (avl_height _ _ Ha). by apply avl_size_bound.
Qed.
End idx.

(** ** Name filter *)
Lemma name_filter_sound src q m s res :
  q_name q = Some m -> get_env src q s = Some res ->
  ∀ e', e' ∈ res -> ∃ k e, (k, e) ∈ stored s src ∧ projects (Some m) e e'.
Proof.
  intros Hn Hg e' Hin. destruct (get_sound _ _ _ _ Hg) as (sub & Hsub & Hf).
  apply elem_of_list_lookup in Hin as [i Hi]. destruct (Forall2_lookup_r _ _ _ _ _ Hf Hi) as ([k e] & Hk & (_ & Hp & _)).
  exists k, e. split; [|by rewrite Hn in Hp].
  apply elem_of_list_lookup_2 in Hk. eapply elem_of_submseteq in Hk; [|by apply sublist_submseteq].
  destruct (q_desc q); [by rewrite elem_of_reverse in Hk|done].
Qed.

Lemma answers_elem q l out : answers q l out -> known_types (q_types q) ->
  ∀ e', e' ∈ out ↔ ∃ e, e ∈ l ∧ selected q e e'.
Proof.
  intros H Hk. induction H as [|e e1 l out Hs Ha IH|e l out Hn Ha IH]; intros e'.
  - split; [intros H; by inversion H|]. intros (e & He & _). by inversion He.
  - rewrite elem_of_cons, IH. split.
    + intros [->|(x & Hx & Hsx)]; [exists e; split; [by left|done]|exists x; split; [by right|done]].
    + intros (x & Hx & Hsx). apply elem_of_cons in Hx as [->|Hx]; [|eauto].
      left. apply (pick_complete _ _ _ Hk) in Hs, Hsx. congruence.
  - rewrite IH. split.
    + intros (x & Hx & Hsx). exists x. split; [by right|done].
    + intros (x & Hx & Hsx). apply elem_of_cons in Hx as [->|Hx]; [|eauto]. by destruct (Hn e').
Qed.

Lemma answers_length q l out : answers q l out -> (length out <= length l)%nat.
Proof. induction 1; simpl; lia. Qed.

Lemma name_filter_exact src q s res :
  time_sorted (stored s src).*2 -> known_types (q_types q) ->
  Z.of_nat (length (stored s src)) < q_limit q -> get_env src q s = Some res ->
  ∀ e', e' ∈ res ↔ ∃ k e, (k, e) ∈ stored s src ∧ selected q e e'.
Proof.
  intros Hs Hk Hl Hg e'. destruct (get_prefix _ _ _ _ Hs Hg) as (rest & Hall & Hrest).
  set (L := if q_desc q then reverse (stored s src).*2 else (stored s src).*2) in *.
  pose proof (answers_pick q L Hk) as Ha. rewrite Hall in Ha.
  assert (length L = length (stored s src)).
  { unfold L. destruct (q_desc q); rewrite ?reverse_length, fmap_length; done. }
  pose proof (answers_length _ _ _ Ha) as Hlen. rewrite app_length in Hlen.
  destruct Hrest as [->|]; [|lia]. rewrite app_nil_r in Ha.
  rewrite (answers_elem _ _ _ Ha Hk). unfold L. split.
  - intros (e & He & Hsel). assert (He' : e ∈ (stored s src).*2) by (destruct (q_desc q); [by rewrite elem_of_reverse in He|done]).
    apply elem_of_list_fmap in He' as ([k x] & -> & Hin). eauto.
  - intros (k & e & Hin & Hsel). exists e. split; [|done].
    assert (He' : e ∈ (stored s src).*2) by (apply elem_of_list_fmap; exists (k, e); done).
    destruct (q_desc q); [by apply elem_of_reverse|done].
Qed.

Lemma get_prefix_answers src q s res :
  time_sorted (stored s src).*2 -> known_types (q_types q) -> get_env src q s = Some res ->
  ∃ rest, answers q (if q_desc q then reverse (stored s src).*2 else (stored s src).*2) (res ++ rest) ∧
    (rest = [] ∨ q_limit q <= Z.of_nat (length res)).
Proof.
  intros Hs Hk Hg. destruct (get_prefix _ _ _ _ Hs Hg) as (rest & Hall & Hrest).
  exists rest. split; [|done]. rewrite <-Hall. by apply answers_pick.
Qed.

Lemma size_exact m ops s :
  1 <= m -> uncrowded m ops -> Forall op_ok ops -> Z.of_nat (length ops) < 2^63 ->
  run (new_store m) ops = Some s ->
  st_size s = Z.of_nat (length (all_stored s)) ∧ st_count s = Z.of_nat (length (all_stored s)).
Proof.
  intros Hm Hu Hop Hl Hr. destruct (history_ok m ops Hm Hu Hop Hl) as (s0 & E & Hi & Ha & Hin).
  rewrite Hr in E. injection E as <-. destruct Ha. split; [congruence|done].
Qed.

Lemma no_panic m ops :
  1 <= m -> uncrowded m ops -> Forall op_ok ops -> Z.of_nat (length ops) < 2^63 ->
  ∃ s, run (new_store m) ops = Some s.
Proof.
  intros Hm Hu Hop Hl. destruct (history_ok m ops Hm Hu Hop Hl) as (s0 & E & _). eauto.
Qed.

Lemma clock_is_some_oldest m ops s q pri now s' :
  1 <= m -> uncrowded m ops -> Forall op_ok ops -> Z.of_nat (length ops) < 2^63 ->
  run (new_store m) ops = Some s -> q ≠ 0 -> truncate q pri now s = Some s' -> all_stored s' ≠ [] ->
  ∃ src e l, stored s' src = (st_oldest s', e) :: l.
Proof.
  intros Hm Hu Hop Hl Hr Hq Ht Hne. destruct (history_ok m ops Hm Hu Hop Hl) as (s0 & E & Hi & Ha & Hin).
  rewrite Hr in E. injection E as <-.
  destruct (truncate_spec q pri now s Hi) as (s'' & removed & E' & Hi' & _ & _ & _ & _ & _ & _ & _ & _ & Hold).
  { destruct Ha. lia. } { destruct Ha. lia. }
  rewrite Ht in E'. injection E' as <-. destruct (Hold Hq Hne) as (src & sg & Hs & ->).
  destruct (inv_head s' Hi' _ _ Hs) as (e0 & l0 & He). exists src, e0, l0. unfold stored. rewrite Hs. exact He.
Qed.

Lemma prune_loop_ingress n : ∀ h s s' h', prune_loop n h s = Some (s', h') -> st_ingress s' = st_ingress s.
Proof.
  induction n as [|n IH]; intros h s s1 h1 E; cbn [prune_loop] in E; [by injection E as -> ->|].
  destruct (heap_pop fst h) as [[[k src] h2]|]; [|done]. cbn [mbind option_bind] in E.
  destruct (remove_oldest src s) as [[s2 nx]|] eqn:Er; [|done]. cbn [mbind option_bind] in E.
  assert (st_ingress s2 = st_ingress s) as <-.
  { unfold remove_oldest in Er. destruct (st_index s !! src) as [sg|]; [|done]. cbn [mbind option_bind] in Er.
    destruct (_ =? 0); [by simplify_eq|]. destruct (avl_left _) as [[]|]; [|done]. cbn [mbind option_bind] in Er.
    destruct (avl_remove _ _); [|done]. cbn [mbind option_bind] in Er.
    destruct (_ =? 0); [by simplify_eq|]. destruct (avl_left _) as [[]|]; [|done]. cbn [mbind option_bind] in Er.
    by simplify_eq. }
  destruct nx; eauto.
Qed.

Lemma step_ingress s o s' : inv s -> step s o = Some s' ->
  st_ingress s' = st_ingress s + (match o with OPut _ _ _ => 1 | _ => 0 end).
Proof.
  intros Hi Hs. destruct o as [e src now|q pri now|src q|]; simpl in Hs.
  - destruct (put_env_spec e src now s (inv_max s Hi) (inv_tree s Hi src))
      as (f & sg' & Hf & Hocc & _ & _ & Hent & _ & _ & _ & E).
    rewrite E in Hs. by injection Hs as <-.
  - unfold truncate in Hs. destruct (q =? 0); [injection Hs as ->; lia|].
    destruct (build_heap _ _) as [h|]; [|done]. cbn [mbind option_bind] in Hs.
    destruct (prune_loop _ h s) as [[s1 h1]|] eqn:E; [|done]. cbn [mbind option_bind] in Hs.
    apply prune_loop_ingress in E. destruct h1 as [|x h1].
    + injection Hs as <-. simpl. lia.
    + destruct (raw_pop (x :: h1)) as [[[ts src] h']|]; [|done]. cbn [mbind option_bind] in Hs. injection Hs as <-. simpl. lia.
  - destruct (get_env src q s); [|done]. simpl in Hs. injection Hs as <-. simpl. lia.
  - injection Hs as <-. lia.
Qed.

Lemma run_ingress ops : ∀ s s', inv s -> run s ops = Some s' ->
  st_ingress s' = st_ingress s +
    Z.of_nat (length (filter (fun o => is_put o = true) ops)).
Proof.
  induction ops as [|o ops IH]; intros s s' Hi; simpl run; [intros [= <-]; simpl; lia|].
  destruct (step s o) as [s1|] eqn:E; [|done]. simpl. intros Hr.
  destruct (step_inv s o s1 Hi E) as [Hi1 _].
  rewrite (IH _ _ Hi1 Hr), (step_ingress _ _ _ Hi E). rewrite filter_cons. destruct o; simpl; lia.
Qed.

Lemma conservation m ops s :
  1 <= m -> uncrowded m ops -> Forall op_ok ops -> Z.of_nat (length ops) < 2^63 ->
  run (new_store m) ops = Some s ->
  Z.of_nat (length (filter (fun o => is_put o = true) ops)) =
    Z.of_nat (length (all_stored s)) + st_expired s ∧
  st_ingress s = Z.of_nat (length (all_stored s)) + st_expired s.
Proof.
  intros Hm Hu Hop Hl Hr. destruct (history_ok m ops Hm Hu Hop Hl) as (s0 & E & Hi & Ha & Hin).
  rewrite Hr in E. injection E as <-. pose proof (run_ingress _ _ _ (inv_new m Hm) Hr) as Hing. simpl in Hing.
  destruct Ha. lia.
Qed.
