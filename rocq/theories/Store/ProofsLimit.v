(** How far a Get may exceed its limit. *)
From stdpp Require Import prelude list gmap strings.
From Verif.Base Require Import GoInt Envelope.
From Verif.Store Require Import Avl AvlProofs Model Spec.
Open Scope Z_scope.

Definition displaced (p : Z * envelope) : Prop := e_ts p.2 ≠ p.1.
Definition ndis (n : tree envelope) : Z := Z.of_nat (length (filter (fun p => e_ts p.2 ≠ p.1) (inorder n))).
Definition rootdis (n : tree envelope) : Z :=
  match n with Leaf => 0 | Node _ k e _ _ => if e_ts e =? k then 0 else 1 end.
Lemma ndis_node h k e l r : ndis (Node h k e l r) = ndis l + (if e_ts e =? k then 0 else 1) + ndis r.
Proof.
  unfold ndis. cbn [inorder]. rewrite filter_app, app_length, filter_cons. cbn [fst snd].
  destruct (Z.eqb_spec (e_ts e) k); [rewrite decide_False by (by intros [])|rewrite decide_True by done]; cbn; lia.
Qed.
Lemma ndis_nonneg n : 0 <= ndis n. Proof. unfold ndis. lia. Qed.

(** the nodes at which a traversal may go on *)
Fixpoint on_asc (n : tree envelope) : Z :=
  match n with Leaf => 0 | Node _ k e l r => on_asc l + on_asc r + (if fudge_member k e r then 1 else 0) end.
Fixpoint on_desc (n : tree envelope) : Z :=
  match n with Leaf => 0 | Node _ k e l r => on_desc l + on_desc r + (if fudge_member k e l then 1 else 0) end.
Lemma fudge_le k e n : (if fudge_member k e n then 1 else 0) <= (if e_ts e =? k then 0 else 1) + rootdis n.
Proof. unfold fudge_member, rootdis. destruct (e_ts e =? k), n as [|? k' e' ? ?]; try destruct (e_ts e' =? k'); cbn; lia. Qed.
Lemma rootdis_range n : 0 <= rootdis n <= 1.
Proof. destruct n as [|? k e ? ?]; cbn; [lia|]. destruct (e_ts e =? k); lia. Qed.
Lemma on_asc_le n : on_asc n + rootdis n <= 2 * ndis n.
Proof.
  induction n as [|h k e l IHl r IHr]; [done|]. cbn [on_asc rootdis]. rewrite ndis_node.
  pose proof (fudge_le k e r). pose proof (rootdis_range l). destruct (e_ts e =? k); lia.
Qed.
Lemma on_desc_le n : on_desc n + rootdis n <= 2 * ndis n.
Proof.
  induction n as [|h k e l IHl r IHr]; [done|]. cbn [on_desc rootdis]. rewrite ndis_node.
  pose proof (fudge_le k e l). pose proof (rootdis_range r). destruct (e_ts e =? k); lia.
Qed.

Section Limit.
Context (types : option (list etype)) (nf : option (string -> bool)) (limit start stop : Z).
Let f := visit types nf limit.
Definition size_ (res : list envelope) : Z := Z.max (Z.of_nat (length res)) (Z.max 1 limit - 1).
Lemma visit_size res e res' b : f res e = Some (res', b) -> size_ res' <= size_ res + (if b then 1 else 0).
Proof.
  unfold f, visit. destruct (filter_by_name nf e) as [e'|]; [|intros [= <- <-]; lia].
  destruct (valid_type e' types) as [ok|]; [|done]. cbn. intros [= <- <-]. unfold size_.
  destruct ok; [rewrite app_length; cbn|]; destruct (Z.leb_spec limit (Z.of_nat (length res + 1)));
   destruct (Z.leb_spec limit (Z.of_nat (length res))); lia.
Qed.
Lemma asc_size n : forall res res' b, tree_asc start stop f n res = Some (res', b) ->
  size_ res' <= size_ res + on_asc n + (if b then 1 else 0).
Proof.
  induction n as [|h k e l IHl r IHr]; intros res res' b; cbn [tree_asc on_asc].
  { intros [= <- <-]. lia. }
  assert (Hpos : forall n, 0 <= on_asc n).
  { clear. induction n as [|h k e l IHl r IHr]; cbn; [lia|]. destruct (fudge_member k e r); lia. }
  pose proof (Hpos l). pose proof (Hpos r).
  destruct (start <=? e_ts e).
  2:{ intros H1. apply IHr in H1. destruct (fudge_member k e r); lia. }
  destruct (tree_asc start stop f l res) as [[res1 b1]|] eqn:E1; [|done]. cbn [mbind option_bind]. apply IHl in E1.
  destruct b1; [intros [= <- <-]; destruct (fudge_member k e r); lia|].
  destruct (if stop <=? e_ts e then Some (res1, true) else f res1 e) as [[res2 b2]|] eqn:E2; [|done]. cbn [mbind option_bind].
  assert (H2 : size_ res2 <= size_ res1 + (if b2 then 1 else 0)).
  { destruct (stop <=? e_ts e); [injection E2 as <- <-; lia|]. by apply visit_size in E2. }
  destruct b2, (fudge_member k e r); cbn [andb negb]; try (intros [= <- <-]; lia); intros H3; apply IHr in H3; lia.
Qed.
Lemma desc_size n : forall res res' b, tree_desc start stop f n res = Some (res', b) ->
  size_ res' <= size_ res + on_desc n + (if b then 1 else 0).
Proof.
  induction n as [|h k e l IHl r IHr]; intros res res' b; cbn [tree_desc on_desc].
  { intros [= <- <-]. lia. }
  assert (Hpos : forall n, 0 <= on_desc n).
  { clear. induction n as [|h k e l IHl r IHr]; cbn; [lia|]. destruct (fudge_member k e l); lia. }
  pose proof (Hpos l). pose proof (Hpos r).
  destruct (e_ts e <? stop).
  2:{ intros H1. apply IHl in H1. destruct (fudge_member k e l); lia. }
  destruct (tree_desc start stop f r res) as [[res1 b1]|] eqn:E1; [|done]. cbn [mbind option_bind]. apply IHr in E1.
  destruct b1; [intros [= <- <-]; destruct (fudge_member k e l); lia|].
  destruct (if e_ts e <? start then Some (res1, true) else f res1 e) as [[res2 b2]|] eqn:E2; [|done]. cbn [mbind option_bind].
  assert (H2 : size_ res2 <= size_ res1 + (if b2 then 1 else 0)).
  { destruct (e_ts e <? start); [injection E2 as <- <-; lia|]. by apply visit_size in E2. }
  destruct b2, (fudge_member k e l); cbn [andb negb]; try (intros [= <- <-]; lia); intros H3; apply IHl in H3; lia.
Qed.
End Limit.

Lemma get_limit src q s res : 1 <= q_limit q -> get_env src q s = Some res ->
  Z.of_nat (length res) <= q_limit q + 2 * Z.of_nat (length (filter (fun p => e_ts p.2 ≠ p.1) (stored s src))).
Proof.
  intros Hl. unfold get_env, stored. destruct (st_index s !! src) as [sg|]; [|intros [= <-]; cbn; lia].
  set (t := av_root (sg_tree sg)). change (Z.of_nat (length (filter _ (inorder t)))) with (ndis t).
  pose proof (on_asc_le t). pose proof (on_desc_le t). pose proof (rootdis_range t).
  destruct (q_desc q).
  - destruct (tree_desc _ _ _ t []) as [[res' b]|] eqn:E; [|done]. cbn. intros [= <-]. apply desc_size in E.
    unfold size_ in E. cbn in E. destruct b; lia.
  - destruct (tree_asc _ _ _ t []) as [[res' b]|] eqn:E; [|done]. cbn. intros [= <-]. apply asc_size in E.
    unfold size_ in E. cbn in E. destruct b; lia.
Qed.
