(** Writes in time order, without eviction, are stored in the order of writing. *)
From stdpp Require Import prelude gmap strings.
From Coq Require Import ZifyBool ZifyNat.
From Verif.Base Require Import GoInt Envelope.
From Verif.Store Require Import Avl AvlProofs GoHeap GoHeapProofs Model Spec ProofsBase ProofsHist ProofsAcct ProofsGet ProofsRoom.
Open Scope Z_scope.

Lemma linsert_end k (e : envelope) l : (∀ p, p ∈ l -> p.1 < k) -> linsert k e l = l ++ [(k, e)].
Proof.
  induction l as [|[k' e'] l IH]; intros H; simpl; [done|].
  assert (k' < k) by (apply (H (k', e')); by left).
  destruct (Z.compare_spec k k'); [lia|lia|]. rewrite IH; [done|]. intros p Hp. apply H. by right.
Qed.

Definition in_order (s : store) (d : list op) : Prop := ∀ src,
  (stored s src).*2 = puts_to src d ∧
  Forall (fun p => e_ts p.2 <= p.1 ∧ ∀ i, e_ts p.2 <= i <= p.1 -> i ∈ (stored s src).*1) (stored s src).

Lemma step_in_order s d o s' :
  inv s -> st_fudge s = 4000 -> in_order s d -> is_truncate o = false ->
  (∀ src, Z.of_nat (length (puts_to src (d ++ [o]))) <= st_max s) ->
  (∀ src, Forall (fun e => in64 (e_ts e) ∧ in64 (e_ts e + 4000)) (puts_to src (d ++ [o]))) ->
  (∀ src, time_sorted (puts_to src (d ++ [o]))) ->
  (match o with OPut e src _ => room s src e | _ => True end) ->
  step s o = Some s' -> in_order s' (d ++ [o]) ∧ st_fudge s' = 4000.
Proof.
  intros Hi Hfu Hio Htr Hcap H64 Hts Hroom Hs.
  destruct o as [e src now|q pri now|src q|]; simpl in Hs; [|done| |].
  - destruct (put_env_spec e src now s (inv_max s Hi) (inv_tree s Hi src))
      as (f & sg' & Hf & Hocc & Hfree & _ & Hent & _ & _ & _ & E).
    rewrite E in Hs. injection Hs as <-. split; [|done]. intros x.
    destruct (Hio x) as [Hw Hrun].
    destruct (decide (src = x)) as [<-|Hne].
    + rewrite stored_insert_eq, Hent.
      assert (Hp : puts_to src (d ++ [OPut e src now]) = puts_to src d ++ [e]).
      { rewrite puts_to_snoc. unfold puts_to at 2. simpl. by rewrite decide_True. }
      specialize (Hcap src). specialize (H64 src). specialize (Hts src). rewrite Hp in Hcap, H64, Hts |- *.
      assert (Hlen : Z.of_nat (length (stored s src)) < st_max s).
      { rewrite app_length in Hcap. simpl in Hcap. rewrite <-Hw, fmap_length in Hcap. lia. }
      rewrite <-stored_entries in *.
      assert (Hbase : base_of (st_max s) (stored s src) = stored s src).
      { unfold base_of. destruct (Z.leb_spec (st_max s) (Z.of_nat (length (stored s src)))); [lia|done]. }
      rewrite Hbase in *.
      apply Forall_app in H64 as [H64 He]. apply Forall_cons in He as [[He1 He2] _].
      assert (Hf4 : f < 4000).
      { destruct (decide (f < 4000)); [done|]. exfalso. destruct Hroom as (g & Hg & Hn). apply Hn.
        rewrite kept_on_put_base, Hbase. apply Hocc. lia. }
      assert (Hwr : ∀ i, 0 <= i <= 4000 -> wrap64 (e_ts e + i) = e_ts e + i).
      { intros i Hi'. apply wrap64_id. unfold in64 in *. lia. }
      rewrite Hwr in * by lia.
      specialize (Hfree ltac:(lia)).
      assert (Hall : ∀ p, p ∈ stored s src -> p.1 < e_ts e + f).
      { intros p Hp'. destruct (Z.lt_trichotomy p.1 (e_ts e + f)) as [?|[Heq|Hgt]]; [done| |].
        - exfalso. apply Hfree. rewrite <-Heq. apply elem_of_list_fmap. eauto.
        - exfalso. apply Hfree. rewrite Forall_forall in Hrun. destruct (Hrun p Hp') as [_ Hr]. apply Hr.
          split; [|lia]. apply time_sorted_app in Hts as (_ & _ & Hts).
          assert (e_ts p.2 <= e_ts e); [|lia]. apply Hts; [|by left]. rewrite <-Hw. apply elem_of_list_fmap. eauto. }
      rewrite linsert_end by done. rewrite fmap_app, Hw. split; [done|].
      apply Forall_app. split.
      * eapply Forall_impl; [exact Hrun|]. intros p [Hp1 Hp2]. split; [done|]. intros i Hi'.
        rewrite fmap_app. apply elem_of_app. left. by apply Hp2.
      * constructor; [|constructor]. simpl. split; [lia|]. intros i Hi'. rewrite fmap_app. apply elem_of_app.
        destruct (decide (i = e_ts e + f)) as [->|]; [right; by left|]. left.
        specialize (Hocc (i - e_ts e) ltac:(lia)). rewrite Hwr in Hocc by lia.
        by replace (e_ts e + (i - e_ts e)) with i in Hocc by lia.
    + rewrite stored_insert_ne by done.
      assert (Hp : puts_to x (d ++ [OPut e src now]) = puts_to x d).
      { rewrite puts_to_snoc. unfold puts_to at 2. simpl. rewrite decide_False by done. by rewrite app_nil_r. }
      by rewrite Hp.
  - destruct (get_env src q s); [|done]. simpl in Hs. injection Hs as <-. split; [|done].
    intros x. destruct (Hio x). rewrite puts_to_snoc. unfold puts_to at 2. simpl. by rewrite app_nil_r.
  - injection Hs as <-. split; [|done]. intros x. destruct (Hio x). rewrite puts_to_snoc. unfold puts_to at 2. simpl. by rewrite app_nil_r.
Qed.

Lemma puts_to_app src a b : puts_to src (a ++ b) = puts_to src a ++ puts_to src b.
Proof. unfold puts_to. by rewrite omap_app. Qed.

Lemma run_in_order ops : ∀ s d s',
  inv s -> st_fudge s = 4000 -> in_order s d -> Forall (fun o => is_truncate o = false) ops ->
  (∀ src, Z.of_nat (length (puts_to src (d ++ ops))) <= st_max s) ->
  (∀ src, Forall (fun e => in64 (e_ts e) ∧ in64 (e_ts e + 4000)) (puts_to src (d ++ ops))) ->
  (∀ src, time_sorted (puts_to src (d ++ ops))) ->
  roomy s ops -> run s ops = Some s' -> in_order s' (d ++ ops).
Proof.
  induction ops as [|o ops IH]; intros s d s' Hi Hfu Hio Htr Hcap H64 Hts Hroom E; simpl in *.
  { injection E as <-. by rewrite app_nil_r. }
  destruct (step s o) as [s1|] eqn:Es; [|done]. simpl in E. apply Forall_cons in Htr as [Ht Htr].
  destruct Hroom as [Hr1 Hr2]. destruct (step_inv s o s1 Hi Es) as [Hi1 Hmax].
  assert (Heq : ∀ src, puts_to src (d ++ o :: ops) = puts_to src (d ++ [o]) ++ puts_to src ops).
  { intros src. rewrite <-puts_to_app, <-app_assoc. done. }
  destruct (step_in_order s d o s1) as [Hio1 Hfu1]; auto.
  { intros src. specialize (Hcap src). rewrite Heq, app_length in Hcap. lia. }
  { intros src. specialize (H64 src). rewrite Heq in H64. by apply Forall_app in H64 as [? _]. }
  { intros src. specialize (Hts src). rewrite Heq in Hts. by apply time_sorted_app in Hts as (? & _). }
  replace (d ++ o :: ops) with ((d ++ [o]) ++ ops) in * by (by rewrite <-app_assoc).
  apply (IH s1 (d ++ [o]) s'); auto. by rewrite Hmax.
Qed.

Lemma in_order_history m ops s src :
  1 <= m -> run (new_store m) ops = Some s -> uncrowded m ops ->
  Forall (fun o => is_truncate o = false) ops ->
  (∀ x, Z.of_nat (length (puts_to x ops)) <= m) ->
  (∀ x, Forall (fun e => in64 (e_ts e) ∧ in64 (e_ts e + 4000)) (puts_to x ops)) ->
  (∀ x, time_sorted (puts_to x ops)) ->
  (stored s src).*2 = puts_to src ops.
Proof.
  intros Hm Hr Hu Ht Hc H64 Hts.
  apply (run_in_order ops (new_store m) [] s (inv_new m Hm) eq_refl); auto.
  - intros x. unfold stored. simpl. rewrite lookup_empty. split; [done|constructor].
  - by apply uncrowded_roomy.
Qed.
