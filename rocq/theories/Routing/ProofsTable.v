(** Routing table, proxies, orchestrator agent. *)
From stdpp Require Import prelude gmap strings list sorting.
From Coq Require Import ZifyBool Sorted.
From Verif.Base Require Import GoInt Envelope.
From Verif.Store Require Import Model Spec.
From Verif.Routing Require Import Model Spec.
Open Scope Z_scope.

(** ** Lookup *)
Lemma in_range_covers h r : in_range h r = true <-> covers r h.
Proof. unfold in_range, covers. lia. Qed.

Lemma elem_of_lookup h t i : i ∈ Model.lookup h t <-> ∃ r, mk_ri r i ∈ t ∧ covers r h.
Proof.
  unfold Model.lookup. rewrite elem_of_list_omap. split.
  - intros ([r j] & Hin & E). simpl in E. destruct (in_range h r) eqn:Er; simplify_eq.
    exists r. split; [done|]. by apply in_range_covers.
  - intros (r & Hin & Hc). exists (mk_ri r i). split; [done|]. simpl. apply in_range_covers in Hc. by rewrite Hc.
Qed.

Lemma lookup_cons h r t :
  Model.lookup h (r :: t) = if in_range h (ri_range r) then ri_idx r :: Model.lookup h t else Model.lookup h t.
Proof. unfold Model.lookup. cbn [omap list_omap]. by destruct (in_range h (ri_range r)). Qed.

Lemma find_range_lookup h rs :
  match find_range h rs with
  | None => Model.lookup h rs = []
  | Some i => ∃ r, rs !! i = Some r ∧ Model.lookup h rs = ri_idx r :: Model.lookup h (drop (S i) rs)
  end.
Proof.
  induction rs as [|r rs IH]; cbn [find_range]; [done|].
  destruct (in_range h (ri_range r)) eqn:Er.
  - exists r. split; [done|]. rewrite lookup_cons, Er. cbn [drop]. by rewrite drop_0.
  - destruct (find_range h rs) as [i|]; cbn [fmap option_fmap option_map].
    + destruct IH as (r' & H1 & H2). exists r'. split; [done|]. by rewrite lookup_cons, Er.
    + by rewrite lookup_cons, Er.
Qed.

Lemma lookup_all_loop_spec fuel h rs acc :
  (length rs < fuel)%nat -> lookup_all_loop fuel h rs acc = Some (acc ++ Model.lookup h rs).
Proof.
  revert rs acc. induction fuel as [|fuel IH]; intros rs acc Hf; [lia|]. cbn [lookup_all_loop].
  pose proof (find_range_lookup h rs) as HF. destruct (find_range h rs) as [i|].
  - destruct HF as (r & Hr & E). setoid_rewrite Hr. cbn [mbind option_bind].
    rewrite IH. { rewrite E, <-app_assoc. done. }
    apply lookup_lt_Some in Hr. rewrite drop_length. lia.
  - rewrite HF. by rewrite app_nil_r.
Qed.
Lemma lookup_all_spec h t : lookup_all h t = Some (Model.lookup h t).
Proof. unfold lookup_all. rewrite lookup_all_loop_spec by lia. done. Qed.

Lemma addr_index_aux addrs k m a i :
  NoDup addrs ->
  foldl (fun (m : gmap string nat) p => <[p.2 := p.1]> m) m (imap (fun j a => ((k + j)%nat, a)) addrs) !! a = Some i <->
  (∃ j, addrs !! j = Some a ∧ i = (k + j)%nat) ∨ (a ∉ addrs ∧ m !! a = Some i).
Proof.
  revert k m. induction addrs as [|x addrs IH]; intros k m Hnd.
  - simpl. split; [intros ?; right; split; [apply not_elem_of_nil|done]|].
    intros [(j & Hj & _)|[_ ?]]; [by rewrite lookup_nil in Hj|done].
  - apply NoDup_cons in Hnd as [Hx Hnd]. simpl.
    replace (imap _ addrs) with (imap (fun j b => ((S k + j)%nat, b)) addrs).
    2:{ apply imap_ext. intros j b _. simpl. f_equal. lia. }
    rewrite IH by done. split.
    + intros [(j & Hj & ->)|[Hn E]].
      * left. exists (S j). simpl. split; [done|lia].
      * destruct (decide (x = a)) as [->|Hne].
        -- rewrite lookup_insert in E. simplify_eq. left. exists 0%nat. simpl. split; [done|lia].
        -- rewrite lookup_insert_ne in E by done. right. split; [|done]. set_solver.
    + intros [(j & Hj & ->)|[Hn E]].
      * destruct j as [|j]; simpl in Hj.
        -- simplify_eq. right. split; [done|]. rewrite lookup_insert. f_equal; lia.
        -- left. exists j. split; [done|lia].
      * apply not_elem_of_cons in Hn as [Hne Hn]. right. split; [done|]. by rewrite lookup_insert_ne.
Qed.
Lemma addr_index_spec addrs a i :
  NoDup addrs -> addr_index addrs !! a = Some i <-> addrs !! i = Some a.
Proof.
  intros Hnd. unfold addr_index.
  replace (imap pair addrs) with (imap (fun j a => ((0 + j)%nat, a)) addrs) by (apply imap_ext; done).
  rewrite addr_index_aux by done. rewrite lookup_empty. split.
  - intros [(j & Hj & ->)|[_ ?]]; done.
  - intros H. left. exists i. done.
Qed.
Lemma addr_index_none addrs a : a ∉ addrs -> addr_index addrs !! a = None.
Proof.
  intros Hn. unfold addr_index.
  assert (Hg : ∀ l (m : gmap string nat), (∀ p, p ∈ l -> p.2 ≠ a) -> m !! a = None ->
     foldl (fun m p => <[p.2 := p.1]> m) m l !! a = None).
  { induction l as [|p l IH]; intros m Hp Hm; simpl; [done|].
    apply IH; [set_solver|]. rewrite lookup_insert_ne; [done|]. apply Hp. set_solver. }
  apply Hg; [|done]. intros [j b] Hp. apply elem_of_list_lookup in Hp as [k Hk].
  rewrite list_lookup_imap in Hk. apply fmap_Some in Hk as (c & Hc & [= -> ->]). simpl.
  apply elem_of_list_lookup_2 in Hc. set_solver.
Qed.

Lemma elem_of_entries addrs order r i :
  mk_ri r i ∈ table_entries addrs order <->
  ∃ a rs, (a, rs) ∈ order ∧ r ∈ rs ∧ i = default 0%nat (addr_index addrs !! a).
Proof.
  unfold table_entries. rewrite elem_of_list_bind. split.
  - intros ([a rs] & H1 & H2). apply elem_of_list_fmap in H1 as (r' & [= -> ->] & H3). simpl in *. eauto 10.
  - intros (a & rs & H1 & H2 & ->). exists (a, rs). split; [|done]. apply elem_of_list_fmap. eauto.
Qed.

Lemma set_ranges_elem addrs old req t r i :
  set_ranges addrs old req t ->
  mk_ri r i ∈ t <-> ∃ a rs, req !! a = Some rs ∧ r ∈ rs ∧ i = default 0%nat (addr_index addrs !! a).
Proof.
  intros (order & Ho & Ht & _). simpl in Ht. rewrite Ht, elem_of_entries.
  setoid_rewrite Ho. setoid_rewrite elem_of_map_to_list. done.
Qed.

Lemma lookup_owns addrs old req t h i :
  NoDup addrs -> known_addrs addrs req -> set_ranges addrs old req t ->
  i ∈ Model.lookup h t <-> owns addrs req h i.
Proof.
  intros Hnd Hk Hs. rewrite elem_of_lookup. setoid_rewrite (set_ranges_elem _ _ _ _ _ _ Hs).
  unfold owns. split.
  - intros (r & (a & rs & Ha & Hr & ->) & Hc).
    destruct (proj1 (elem_of_list_lookup addrs a) (Hk a ltac:(eauto))) as [j Hj].
    exists a, rs, r. rewrite (proj2 (addr_index_spec addrs a j Hnd) Hj). done.
  - intros (a & rs & r & Hi & Ha & Hr & Hc). exists r. split; [|done]. exists a, rs.
    rewrite (proj2 (addr_index_spec addrs a i Hnd) Hi). done.
Qed.

(** ** Determinism *)
Definition entry_le (a b : Z * nat) : Prop := a.1 < b.1 ∨ (a.1 = b.1 ∧ (b.2 <= a.2)%nat).
Global Instance entry_le_antisymm : AntiSymm (=) entry_le.
Proof. intros [a1 a2] [b1 b2]. unfold entry_le. simpl. intros. f_equal; lia. Qed.

Definition hit (h : Z) (ri : rinfo) : option (Z * nat) :=
  if in_range h (ri_range ri) then Some (r_start (ri_range ri), ri_idx ri) else None.
Lemma lookup_hit h t : Model.lookup h t = snd <$> omap (hit h) t.
Proof.
  induction t as [|ri t IH]; [done|]. rewrite lookup_cons. cbn [omap list_omap]. unfold hit at 1.
  destruct (in_range h (ri_range ri)); [|done]. rewrite fmap_cons. simpl. by rewrite IH.
Qed.
Lemma less_false a b : less b a = false -> entry_le (r_start (ri_range a), ri_idx a) (r_start (ri_range b), ri_idx b).
Proof.
  unfold less, entry_le. simpl. destruct (Z.eqb_spec (r_start (ri_range b)) (r_start (ri_range a))); lia.
Qed.

Lemma hits_sorted h t :
  (∀ i j a b, (i < j)%nat -> t !! i = Some a -> t !! j = Some b -> less b a = false) ->
  StronglySorted entry_le (omap (hit h) t).
Proof.
  induction t as [|ri t IH]; intros Hs; simpl; [constructor|].
  assert (Ht : StronglySorted entry_le (omap (hit h) t)).
  { apply IH. intros i j a b Hij Ha Hb. apply (Hs (S i) (S j)); [lia|done|done]. }
  destruct (hit h ri) as [p|] eqn:E; [|done]. constructor; [done|].
  apply Forall_forall. intros q Hq. apply elem_of_list_omap in Hq as (rj & Hj & Ej).
  apply elem_of_list_lookup in Hj as [j Hj].
  specialize (Hs 0%nat (S j) ri rj ltac:(lia) eq_refl Hj). apply less_false in Hs.
  unfold hit in E, Ej. repeat case_match; simplify_eq. done.
Qed.

Lemma omap_perm {A B} (f : A -> option B) l l' : l ≡ₚ l' -> omap f l ≡ₚ omap f l'.
Proof. by intros ->. Qed.

Lemma set_ranges_lookup_det addrs o1 o2 req t1 t2 h :
  set_ranges addrs o1 req t1 -> set_ranges addrs o2 req t2 -> Model.lookup h t1 = Model.lookup h t2.
Proof.
  intros (ord1 & Ho1 & Ht1 & Hs1) (ord2 & Ho2 & Ht2 & Hs2). rewrite !lookup_hit. f_equal.
  apply (StronglySorted_unique entry_le); [by apply hits_sorted|by apply hits_sorted|].
  apply omap_perm. rewrite Ht1, Ht2. simpl. unfold table_entries.
  rewrite Ho1, Ho2. done.
Qed.

(** existence: insertion sort gives a table *)
Fixpoint ins (x : rinfo) (l : list rinfo) : list rinfo :=
  match l with [] => [x] | y :: l' => if less y x then y :: ins x l' else x :: y :: l' end.
Definition isort (l : list rinfo) : list rinfo := foldr ins [] l.
Definition rle (a b : rinfo) : Prop := less b a = false.
Lemma less_trans_neg a b c : rle a b -> rle b c -> rle a c.
Proof. unfold rle, less. repeat case_match; lia. Qed.
Lemma ins_perm x l : ins x l ≡ₚ x :: l.
Proof.
  induction l as [|y l IH]; simpl; [done|]. destruct (less y x); [|done]. rewrite IH. apply Permutation_swap.
Qed.
Lemma ins_sorted x l : StronglySorted rle l -> StronglySorted rle (ins x l).
Proof.
  induction 1 as [|y l Hl IH HF]; simpl; [repeat constructor|].
  destruct (less y x) eqn:E.
  - constructor; [done|]. rewrite ins_perm. constructor; [|done].
    unfold rle, less in *. repeat case_match; lia.
  - constructor; [by constructor|]. constructor; [done|].
    eapply Forall_impl; [exact HF|]. intros z Hz. by eapply less_trans_neg.
Qed.
Lemma isort_spec l : isort l ≡ₚ l ∧ StronglySorted rle (isort l).
Proof.
  induction l as [|x l [IH1 IH2]]; simpl; [split; [done|constructor]|].
  split; [by rewrite ins_perm, IH1|by apply ins_sorted].
Qed.
Lemma set_ranges_exists addrs old req : set_ranges addrs old req (isort (table_entries addrs (map_to_list req))).
Proof.
  exists (map_to_list req). split; [done|]. destruct (isort_spec (table_entries addrs (map_to_list req))) as [H1 H2].
  split; [done|]. intros i j a b Hij Ha Hb. clear H1.
  revert i j Hij Ha Hb. induction H2 as [|x l Hl IH HF]; intros i j Hij Ha Hb; [done|].
  destruct i as [|i], j as [|j]; simpl in *; try lia.
  - simplify_eq. rewrite Forall_forall in HF. apply HF. by eapply elem_of_list_lookup_2.
  - apply (IH i j); [lia|done|done].
Qed.

(** ** Ingress *)
Lemma group_one_lookup lk (m : gmap nat (list envelope)) (e : envelope) i :
  default [] (foldl (fun m idx => <[idx := default [] (m !! idx) ++ [e]]> m) m lk !! i)
  = default [] (m !! i) ++ replicate (times i lk) e.
Proof.
  revert m. induction lk as [|j lk IH]; intros m; simpl.
  - by rewrite app_nil_r.
  - rewrite IH. unfold times. rewrite filter_cons. destruct (decide (j = i)) as [->|Hne].
    + rewrite lookup_insert. simpl. by rewrite <-app_assoc.
    + by rewrite lookup_insert_ne.
Qed.
Lemma envelopes_by_node_spec lk batch m i :
  default [] (foldl (group_one lk) m batch !! i)
  = default [] (m !! i) ++ (e ← batch; replicate (times i (lk (e_source e))) e).
Proof.
  revert m. induction batch as [|e batch IH]; intros m; cbn [foldl].
  - by rewrite app_nil_r.
  - rewrite IH. unfold group_one. rewrite group_one_lookup. cbn [mbind list_bind].
    by rewrite <-app_assoc.
Qed.
Lemma group_one_dom lk (m : gmap nat (list envelope)) (e : envelope) i :
  is_Some (foldl (fun m idx => <[idx := default [] (m !! idx) ++ [e]]> m) m lk !! i) <-> is_Some (m !! i) ∨ i ∈ lk.
Proof.
  revert m. induction lk as [|j lk IH]; intros m; simpl.
  - set_solver.
  - rewrite IH. destruct (decide (j = i)) as [->|Hne].
    + rewrite lookup_insert. split; [intros _; right; set_solver|intros _; left; eauto].
    + rewrite lookup_insert_ne by done. set_solver.
Qed.
Lemma envelopes_by_node_dom lk batch m i :
  is_Some (foldl (group_one lk) m batch !! i) <-> is_Some (m !! i) ∨ ∃ e, e ∈ batch ∧ i ∈ lk (e_source e).
Proof.
  revert m. induction batch as [|e batch IH]; intros m; cbn [foldl].
  - set_solver.
  - rewrite IH. unfold group_one. rewrite group_one_dom. set_solver.
Qed.

Lemma delivered_order i (order : list (nat * list envelope)) :
  delivered i ((fun p => (p.1, mk_send true (Some p.2))) <$> order) = p ← order; if decide (p.1 = i) then p.2 else [].
Proof.
  unfold delivered. induction order as [|p l IH]; [done|]. rewrite fmap_cons. cbn [mbind list_bind]. rewrite IH. done.
Qed.

Lemma bind_singleton {A} i (m : gmap nat (list A)) order :
  order ≡ₚ map_to_list m ->
  (p ← order; if decide (p.1 = i) then p.2 else []) = default [] (m !! i).
Proof.
  intros Hp.
  assert (Hnd : NoDup order.*1). { rewrite Hp. apply NoDup_fst_map_to_list. }
  assert (Hel : ∀ k v, (k, v) ∈ order <-> m !! k = Some v).
  { intros k v. rewrite Hp. apply elem_of_map_to_list. }
  clear Hp. assert (Hnone : ∀ l : list (nat * list A), i ∉ l.*1 -> (p ← l; if decide (p.1 = i) then p.2 else []) = []).
  { induction l as [|p l IH]; intros Hn; [done|]. cbn [mbind list_bind]. rewrite fmap_cons in Hn.
    apply not_elem_of_cons in Hn as [? ?]. rewrite decide_False by done. simpl. by apply IH. }
  destruct (m !! i) as [v|] eqn:E; simpl.
  - apply Hel in E. clear Hel. induction order as [|p l IH]; [by apply elem_of_nil in E|].
    rewrite fmap_cons in Hnd. apply NoDup_cons in Hnd as [Hp Hnd]. cbn [mbind list_bind].
    apply elem_of_cons in E as [<-|E].
    + simpl in *. rewrite decide_True by done. rewrite Hnone by done. by rewrite app_nil_r.
    + rewrite decide_False. { simpl. by apply IH. }
      intros Hpi. apply Hp. rewrite Hpi. apply (elem_of_list_fmap_1 fst) in E. done.
  - apply Hnone. intros Hin. apply elem_of_list_fmap in Hin as ([k v] & -> & Hkv). apply Hel in Hkv. simpl in E. congruence.
Qed.

Lemma send_spec lk n localIdx r batch out :
  sr_local_only r = false -> sr_envelopes r = Some batch ->
  (∀ e i, e ∈ batch -> i ∈ lk (e_source e) -> (i < n)%nat) ->
  send_calls lk n localIdx r out ->
  ∃ calls, out = Some calls ∧
    (∀ c, c ∈ calls -> sr_local_only c.2 = true) ∧
    NoDup calls.*1 ∧
    ∀ i, delivered i calls = e ← batch; replicate (times i (lk (e_source e))) e.
Proof.
  intros Hl Hb Hin (order & Hp & ->). unfold send_with. rewrite Hl, Hb.
  assert (Hgb : get_batch r = batch) by (unfold get_batch; by rewrite Hb). rewrite Hgb in Hp.
  assert (Hall : forallb (fun p => p.1 <? n)%nat order = true).
  { apply forallb_forall. intros [i es] Hi%elem_of_list_In. rewrite Hp in Hi. apply elem_of_map_to_list in Hi. simpl.
    assert (Hs : is_Some (envelopes_by_node lk batch !! i)) by eauto.
    apply envelopes_by_node_dom in Hs as [[? Hs]|(e & He & Hie)]; [by rewrite lookup_empty in Hs|].
    apply Nat.ltb_lt. eauto. }
  rewrite Hall. eexists. split; [done|]. split; [|split].
  - intros c Hc. apply elem_of_list_fmap in Hc as (p & -> & _). done.
  - rewrite <-list_fmap_compose. rewrite (list_fmap_ext _ fst order); [|done].
    rewrite Hp. apply NoDup_fst_map_to_list.
  - intros i. rewrite delivered_order, (bind_singleton i _ _ Hp).
    unfold envelopes_by_node. by rewrite envelopes_by_node_spec, lookup_empty.
Qed.

Lemma times_nodup i l : NoDup l -> times i l = if decide (i ∈ l) then 1%nat else 0%nat.
Proof.
  unfold times. induction 1 as [|j l Hj Hnd IH]; [done|]. rewrite filter_cons. destruct (decide (j = i)) as [->|Hne].
  - rewrite decide_True by set_solver. simpl. rewrite IH. by rewrite decide_False.
  - rewrite IH. destruct (decide (i ∈ l)); [rewrite decide_True by set_solver|rewrite decide_False by set_solver]; done.
Qed.
Lemma bind_times lk i (batch : list envelope) :
  (∀ e, e ∈ batch -> NoDup (lk (e_source e))) ->
  (e ← batch; replicate (times i (lk (e_source e))) e) = filter (fun e => i ∈ lk (e_source e)) batch.
Proof.
  induction batch as [|e l IH]; intros Hnd; [done|]. cbn [mbind list_bind]. rewrite filter_cons.
  rewrite times_nodup by (apply Hnd; set_solver).
  rewrite IH by (intros; apply Hnd; set_solver). destruct (decide _); done.
Qed.
