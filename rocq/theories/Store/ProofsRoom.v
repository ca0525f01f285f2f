(** History-only conditions under which a free storage time is always found. *)
From stdpp Require Import prelude gmap strings.
From Coq Require Import ZifyBool ZifyNat.
From Verif.Base Require Import GoInt Envelope.
From Verif.Store Require Import Avl AvlProofs GoHeap GoHeapProofs Model Spec ProofsBase ProofsHist ProofsAcct ProofsGet.
Open Scope Z_scope.

Lemma wrap64_inj_window a i j : 0 <= i < 2^63 -> 0 <= j < 2^63 -> wrap64 (a + i) = wrap64 (a + j) -> i = j.
Proof. unfold wrap64. intros. lia. Qed.

Lemma free_or_full (ts n : Z) (keys : list Z) : 0 <= n < 2^63 ->
  (∃ f, 0 <= f < n ∧ wrap64 (ts + f) ∉ keys) ∨
  ((λ f, wrap64 (ts + f)) <$> seqZ 0 n) ⊆+ keys.
Proof.
  intros Hn. destruct (decide (Exists (fun f => wrap64 (ts + f) ∉ keys) (seqZ 0 n))) as [He|Hne].
  - left. apply Exists_exists in He as (f & Hf & Hk). apply elem_of_seqZ in Hf. exists f. split; [lia|done].
  - right. apply NoDup_submseteq.
    + apply NoDup_fmap_2_strong; [|apply NoDup_seqZ]. intros x y Hx Hy E. apply elem_of_seqZ in Hx, Hy.
      eapply wrap64_inj_window; [| |exact E]; lia.
    + intros k Hk. apply elem_of_list_fmap in Hk as (f & -> & Hf).
      destruct (decide (wrap64 (ts + f) ∈ keys)); [done|]. exfalso. apply Hne. apply Exists_exists. eauto.
Qed.

Lemma kept_on_put_base s src : kept_on_put s src = base_of (st_max s) (stored s src).
Proof. done. Qed.

Lemma kept_length s src : inv s -> Z.of_nat (length (kept_on_put s src)) < st_max s.
Proof.
  intros Hi. pose proof (inv_max s Hi).
  assert (Hcap : Z.of_nat (length (stored s src)) <= st_max s).
  { unfold stored. destruct (st_index s !! src) as [sg|] eqn:E; [apply (inv_cap s Hi _ _ E)|simpl; lia]. }
  unfold kept_on_put. destruct (Z.leb_spec (st_max s) (Z.of_nat (length (stored s src)))); [|lia].
  destruct (stored s src); simpl in *; lia.
Qed.

Lemma room_small s src e : inv s -> st_max s <= 4000 -> room s src e.
Proof.
  intros Hi Hm. unfold room. destruct (free_or_full (e_ts e) 4000 (kept_on_put s src).*1) as [?|Hsub]; [lia|done|].
  exfalso. apply submseteq_length in Hsub. rewrite !fmap_length, seqZ_length in Hsub.
  pose proof (kept_length s src Hi). lia.
Qed.

Lemma filter_submseteq {A} (P : A -> Prop) `{∀ x, Decision (P x)} l1 l2 : l1 ⊆+ l2 -> filter P l1 ⊆+ filter P l2.
Proof.
  induction 1 as [|x l1 l2 Hs IH|x y l|x l1 l2 Hs IH|l1 l2 l3 H1 IH1 H2 IH2]; simpl; auto.
  - rewrite !filter_cons. case_decide; auto. by constructor.
  - rewrite !filter_cons. repeat case_decide; auto. constructor.
  - rewrite !filter_cons. case_decide; auto. by constructor.
  - by etrans.
Qed.

Lemma filter_all {A} (P : A -> Prop) `{∀ x, Decision (P x)} l : Forall P l -> filter P l = l.
Proof. induction 1; [done|]. rewrite filter_cons_True by done. by f_equal. Qed.

Lemma filter_length_impl {A} (P Q : A -> Prop) `{∀ x, Decision (P x)} `{∀ x, Decision (Q x)} l :
  Forall (fun x => P x -> Q x) l -> (length (filter P l) <= length (filter Q l))%nat.
Proof.
  induction 1 as [|x l Hx Hl IH]; [done|]. rewrite !filter_cons. repeat case_decide; simpl; try lia. tauto.
Qed.

Definition near (s : store) (done_ : list op) : Prop :=
  ∀ src, Forall (fun p => e_ts p.2 <= p.1 <= e_ts p.2 + 4000) (stored s src) ∧
         (stored s src).*2 ⊆+ puts_to src done_.

Lemma room_sparse s done_ src e :
  inv s -> near s done_ -> in64 (e_ts e) -> in64 (e_ts e + 4000) ->
  Z.of_nat (length (filter (fun x => e_ts e - 4000 <= e_ts x <= e_ts e + 4000) (puts_to src done_))) < 4000 ->
  room s src e.
Proof.
  intros Hi Hn H64 H64' Hlt. unfold room.
  destruct (free_or_full (e_ts e) 4000 (kept_on_put s src).*1) as [?|Hsub]; [lia|done|]. exfalso.
  destruct (Hn src) as [Hkeys Hputs].
  assert (Hk : (kept_on_put s src).*1 ⊆+ (stored s src).*1).
  { unfold kept_on_put. destruct (_ <=? _); [|done]. destruct (stored s src); simpl; [done|]. by constructor. }
  pose proof (submseteq_trans _ _ _ Hsub Hk) as Hsub'.
  apply (filter_submseteq (fun k => e_ts e <= k <= e_ts e + 3999)) in Hsub'.
  rewrite filter_all in Hsub'.
  2: { apply Forall_fmap, Forall_forall. intros f Hf. apply elem_of_seqZ in Hf. simpl.
       unfold in64 in *. rewrite wrap64_id by (unfold in64; lia). lia. }
  apply submseteq_length in Hsub'. rewrite fmap_length, seqZ_length in Hsub'.
  assert (Hle : (length (filter (fun k => (e_ts e <= k <= e_ts e + 3999)%Z) (stored s src).*1) <=
           length (filter (fun x => (e_ts e - 4000 <= e_ts x <= e_ts e + 4000)%Z) (stored s src).*2))%nat).
  { clear -Hkeys. induction Hkeys as [|[k x] l Hx Hl IH]; [done|]. cbn [fmap list_fmap fst snd]. rewrite !filter_cons.
    simpl in Hx. repeat case_decide; simpl; try lia. }
  apply (filter_submseteq (fun x => e_ts e - 4000 <= e_ts x <= e_ts e + 4000)) in Hputs.
  apply submseteq_length in Hputs. lia.
Qed.

Lemma linsert_snd_sub k (e : envelope) l : (linsert k e l).*2 ⊆+ l.*2 ++ [e].
Proof.
  induction l as [|[k' e'] l IH]; simpl; [done|].
  destruct (k ?= k'); cbn [fmap list_fmap snd].
  - rewrite (Permutation_app_comm _ [e]). simpl. apply submseteq_cons. done.
  - rewrite (Permutation_app_comm _ [e]). simpl. rewrite (Permutation_swap e' e). done.
  - by constructor.
Qed.

Lemma step_near s done_ o s' :
  inv s -> st_fudge s = 4000 -> near s done_ ->
  (∀ e src now, o = OPut e src now -> in64 (e_ts e) ∧ in64 (e_ts e + 4000)) ->
  step s o = Some s' -> near s' (done_ ++ [o]).
Proof.
  intros Hi Hfu Hn H64 Hs.
  assert (Hmono : ∀ x l, l ⊆+ puts_to x done_ -> l ⊆+ puts_to x (done_ ++ [o])).
  { intros x l Hl. rewrite puts_to_snoc. etrans; [exact Hl|]. apply submseteq_inserts_r. done. }
  destruct o as [e src now|q pri now|src q|]; simpl in Hs.
  - destruct (put_env_spec e src now s (inv_max s Hi) (inv_tree s Hi src))
      as (f & sg' & Hf & Hocc & _ & _ & Hent & _ & _ & _ & E).
    rewrite E in Hs. injection Hs as <-. intros x.
    destruct (H64 _ _ _ eq_refl) as [Ha Hb]. rewrite Hfu in Hf.
    destruct (decide (src = x)) as [<-|Hne].
    + rewrite stored_insert_eq, Hent. destruct (Hn src) as [Hk Hp].
      assert (Hw : wrap64 (e_ts e + f) = e_ts e + f).
      { apply wrap64_id. unfold in64 in *. lia. }
      rewrite Hw. split.
      * apply Forall_linsert; [simpl; lia|]. by apply Forall_base_of.
      * etrans; [apply linsert_snd_sub|]. rewrite puts_to_snoc. unfold puts_to at 2. simpl.
        rewrite decide_True by done. apply submseteq_skips_r. etrans; [|exact Hp].
        change (entries s src) with (stored s src). unfold base_of. destruct (_ <=? _); [|done].
        destruct (stored s src); simpl; [done|]. by constructor.
    + rewrite stored_insert_ne by done. destruct (Hn x). split; auto.
  - intros x. destruct (truncate_sub _ _ _ _ _ Hi Hs x) as [r Hr]. destruct (Hn x) as [Hk Hp]. rewrite Hr in Hk, Hp.
    apply Forall_app in Hk as [_ Hk]. split; [done|]. apply Hmono. etrans; [|exact Hp]. rewrite fmap_app.
    by apply submseteq_inserts_l.
  - destruct (get_env src q s); [|done]. simpl in Hs. injection Hs as <-. intros x. destruct (Hn x). split; [done|auto].
  - injection Hs as <-. intros x. destruct (Hn x). split; [done|auto].
Qed.

Lemma step_fudge s o s' : inv s -> step s o = Some s' -> st_fudge s' = st_fudge s.
Proof.
  intros Hi Hs. destruct o as [e src now|q pri now|src q|]; simpl in Hs.
  - destruct (put_env_spec e src now s (inv_max s Hi) (inv_tree s Hi src))
      as (f & sg' & Hf & Hocc & _ & _ & Hent & _ & _ & _ & E).
    rewrite E in Hs. by injection Hs as <-.
  - unfold truncate in Hs. destruct (q =? 0); [by injection Hs as ->|].
    destruct (build_heap _ _) as [h|]; [|done]. cbn [mbind option_bind] in Hs.
    destruct (prune_loop _ h s) as [[s1 h1]|] eqn:E; [|done]. cbn [mbind option_bind] in Hs.
    assert (Hfud : ∀ n h s s1 h1, prune_loop n h s = Some (s1, h1) -> st_fudge s1 = st_fudge s).
    { clear. induction n as [|n IH]; intros h s s1 h1 E; cbn [prune_loop] in E; [by injection E as -> ->|].
      destruct (heap_pop fst h) as [[[k src] h2]|]; [|done]. cbn [mbind option_bind] in E.
      destruct (remove_oldest src s) as [[s2 nx]|] eqn:Er; [|done]. cbn [mbind option_bind] in E.
      assert (st_fudge s2 = st_fudge s) as <-.
      { unfold remove_oldest in Er. destruct (st_index s !! src) as [sg|]; [|done]. cbn [mbind option_bind] in Er.
        destruct (_ =? 0); [by simplify_eq|]. destruct (avl_left _) as [[]|]; [|done]. cbn [mbind option_bind] in Er.
        destruct (avl_remove _ _); [|done]. cbn [mbind option_bind] in Er.
        destruct (_ =? 0); [by simplify_eq|]. destruct (avl_left _) as [[]|]; [|done]. cbn [mbind option_bind] in Er.
        by simplify_eq. }
      destruct nx; eauto. }
    apply Hfud in E. destruct h1 as [|x h1].
    + by injection Hs as <-.
    + destruct (raw_pop (x :: h1)) as [[[ts src] h']|]; [|done]. cbn [mbind option_bind] in Hs. by injection Hs as <-.
  - destruct (get_env src q s); [|done]. simpl in Hs. by injection Hs as <-.
  - by injection Hs as <-.
Qed.

Lemma roomy_small ops : ∀ s, inv s -> st_max s <= 4000 -> roomy s ops.
Proof.
  induction ops as [|o ops IH]; intros s Hi Hm; simpl; [done|]. split.
  - destruct o; auto. by apply room_small.
  - intros s' Hs. destruct (step_inv s o s' Hi Hs) as [Hi' Hmx]. apply IH; [done|lia].
Qed.

Lemma roomy_sparse ops : ∀ s done_, inv s -> st_fudge s = 4000 -> near s done_ ->
  (∀ pre e src now post, done_ ++ ops = pre ++ OPut e src now :: post ->
    in64 (e_ts e) ∧ in64 (e_ts e + 4000) ∧
    Z.of_nat (length (filter (fun x => e_ts e - 4000 <= e_ts x <= e_ts e + 4000) (puts_to src pre))) < 4000) ->
  roomy s ops.
Proof.
  induction ops as [|o ops IH]; intros s done_ Hi Hfu Hn Hsp; simpl; [done|]. split.
  - destruct o; auto. destruct (Hsp _ _ _ _ _ eq_refl) as (Ha & Hb & Hc).
    by eapply room_sparse.
  - intros s' Hs. destruct (step_inv s o s' Hi Hs) as [Hi' Hmx].
    apply (IH s' (done_ ++ [o])); auto.
    + rewrite <-Hfu. by eapply step_fudge.
    + apply (step_near s done_ o s'); auto. intros e src now ->. destruct (Hsp _ _ _ _ _ eq_refl) as (Ha & Hb & Hc). done.
    + rewrite <-app_assoc. done.
Qed.

Lemma uncrowded_roomy m ops : 1 <= m -> uncrowded m ops -> roomy (new_store m) ops.
Proof.
  intros Hm [Hs|Hs].
  - by apply roomy_small; [apply inv_new|].
  - apply (roomy_sparse ops (new_store m) []); auto; [by apply inv_new|]. intros x. split; [constructor|done].
Qed.

(** a source's content only ever comes from what was put to it *)
