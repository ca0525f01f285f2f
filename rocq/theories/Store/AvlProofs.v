(** Proofs about the AVL tree model: it is a sorted finite map, keeps its balance invariant and
    never dereferences nil. *)
From stdpp Require Import prelude.
From Coq Require Import ZifyBool.
From Verif.Store Require Import Avl.
Open Scope Z_scope.

Section avl.
Context {V : Type}.
Notation tree := (tree V).
Implicit Types (t : tree) (k : Z) (v : V).

(** ** Lists of entries ordered by key *)

Fixpoint inorder (t : tree) : list (Z * V) :=
  match t with
  | Leaf => []
  | Node _ k v l r => inorder l ++ (k, v) :: inorder r
  end.

Fixpoint sorted (l : list (Z * V)) : Prop :=
  match l with
  | [] => True
  | (k, _) :: l' => Forall (fun e => k < e.1) l' ∧ sorted l'
  end.

Fixpoint linsert (k : Z) (v : V) (l : list (Z * V)) : list (Z * V) :=
  match l with
  | [] => [(k, v)]
  | (k', v') :: l' =>
      match Z.compare k k' with
      | Eq => (k, v) :: l'
      | Lt => (k, v) :: (k', v') :: l'
      | Gt => (k', v') :: linsert k v l'
      end
  end.

Fixpoint lget (k : Z) (l : list (Z * V)) : option V :=
  match l with
  | [] => None
  | (k', v') :: l' => if Z.eqb k k' then Some v' else lget k l'
  end.

Fixpoint lremove (k : Z) (l : list (Z * V)) : list (Z * V) :=
  match l with
  | [] => []
  | (k', v') :: l' => if Z.eqb k k' then l' else (k', v') :: lremove k l'
  end.

Lemma sorted_app l1 l2 :
  sorted (l1 ++ l2) ↔
  sorted l1 ∧ sorted l2 ∧ Forall (fun a => Forall (fun b => a.1 < b.1) l2) l1.
Proof.
  induction l1 as [|[k v] l1 IH]; simpl.
  - split; [intros ?; repeat split; auto|naive_solver].
  - rewrite Forall_app, IH. split.
    + intros [[? ?] [? [? ?]]]. repeat split; auto.
    + intros [[? ?] [? HH]]. inversion HH; subst. repeat split; auto.
Qed.

Lemma sorted_node l1 k v l2 :
  sorted (l1 ++ (k, v) :: l2) ↔
  sorted l1 ∧ sorted l2 ∧ Forall (fun a => a.1 < k) l1 ∧ Forall (fun b => k < b.1) l2.
Proof.
  rewrite sorted_app. simpl. split.
  - intros [H1 [[H2 H3] H4]]. repeat split; auto.
    eapply Forall_impl; [exact H4|]. intros x Hx. inversion Hx; auto.
  - intros [H1 [H2 [H3 H4]]]. repeat split; auto.
    eapply Forall_impl; [exact H3|]. simpl. intros x Hx. constructor; simpl; auto.
    eapply Forall_impl; [exact H4|]. simpl. intros; lia.
Qed.

Lemma linsert_app_r k v l1 l2 :
  Forall (fun a => a.1 < k) l1 -> linsert k v (l1 ++ l2) = l1 ++ linsert k v l2.
Proof.
  induction 1 as [|[k' v'] l1 Hk Hl IH]; simpl; auto. simpl in Hk.
  assert (E : Z.compare k k' = Gt) by (apply Z.compare_gt_iff; lia). rewrite E, IH. auto.
Qed.

Lemma linsert_app_l k v l1 k' v' l2 :
  k < k' -> linsert k v (l1 ++ (k', v') :: l2) = linsert k v l1 ++ (k', v') :: l2.
Proof.
  intros Hk. induction l1 as [|[k1 v1] l1 IH]; simpl.
  - assert (E : Z.compare k k' = Lt) by (apply Z.compare_lt_iff; lia). rewrite E. auto.
  - destruct (Z.compare k k1); simpl; auto. by rewrite IH.
Qed.

Lemma lremove_app_r k l1 l2 :
  Forall (fun a => a.1 < k) l1 -> lremove k (l1 ++ l2) = l1 ++ lremove k l2.
Proof.
  induction 1 as [|[k' v'] l1 Hk Hl IH]; simpl; auto. simpl in Hk.
  destruct (Z.eqb_spec k k'); [lia|]. by rewrite IH.
Qed.

Lemma lremove_notin k l : Forall (fun b => k < b.1) l -> lremove k l = l.
Proof.
  induction 1 as [|[k' v'] l' Hk Hl IH]; simpl; auto. simpl in Hk.
  destruct (Z.eqb_spec k k'); [lia|]. by rewrite IH.
Qed.

Lemma lremove_app_l k l1 k' v' l2 :
  k < k' -> Forall (fun b => k' < b.1) l2 ->
  lremove k (l1 ++ (k', v') :: l2) = lremove k l1 ++ (k', v') :: l2.
Proof.
  intros Hk Hf. induction l1 as [|[k1 v1] l1 IH]; simpl.
  - destruct (Z.eqb_spec k k'); [lia|]. rewrite lremove_notin; auto.
    eapply Forall_impl; [exact Hf|]; simpl; intros; lia.
  - destruct (Z.eqb_spec k k1); auto. simpl. by rewrite IH.
Qed.

Lemma lget_app_r k l1 l2 :
  Forall (fun a => a.1 < k) l1 -> lget k (l1 ++ l2) = lget k l2.
Proof.
  induction 1 as [|[k' v'] l1 Hk Hl IH]; simpl; auto. simpl in Hk.
  destruct (Z.eqb_spec k k'); [lia|]. by rewrite IH.
Qed.

Lemma lget_notin k l : Forall (fun b => k < b.1) l -> lget k l = None.
Proof.
  induction 1 as [|[k' v'] l' Hk Hl IH]; simpl; auto. simpl in Hk.
  destruct (Z.eqb_spec k k'); [lia|]. by rewrite IH.
Qed.

Lemma lget_app_l k l1 k' v' l2 :
  k < k' -> Forall (fun b => k' < b.1) l2 -> lget k (l1 ++ (k', v') :: l2) = lget k l1.
Proof.
  intros Hk Hf. induction l1 as [|[k1 v1] l1 IH]; simpl.
  - destruct (Z.eqb_spec k k'); [lia|]. apply lget_notin.
    eapply Forall_impl; [exact Hf|]; simpl; intros; lia.
  - destruct (Z.eqb_spec k k1); auto.
Qed.

Lemma Forall_linsert (P : Z * V -> Prop) k v l :
  P (k, v) -> Forall P l -> Forall P (linsert k v l).
Proof.
  intros Hp. induction 1 as [|[k' v'] l' ? ? IH]; simpl; [by repeat constructor|].
  destruct (Z.compare k k'); repeat constructor; auto.
Qed.

Lemma Forall_lremove (P : Z * V -> Prop) k l : Forall P l -> Forall P (lremove k l).
Proof.
  induction 1 as [|[k' v'] l' ? ? IH]; simpl; auto. destruct (k =? k'); auto.
Qed.

Lemma sorted_linsert k v l : sorted l -> sorted (linsert k v l).
Proof.
  induction l as [|[k' v'] l IH]; simpl; [repeat constructor|].
  intros [Hf Hs]. destruct (Z.compare_spec k k'); simpl; subst; split; auto.
  - constructor; auto. eapply Forall_impl; [exact Hf|]; simpl; intros; lia.
  - apply Forall_linsert; auto.
Qed.

Lemma sorted_lremove k l : sorted l -> sorted (lremove k l).
Proof.
  induction l as [|[k' v'] l IH]; simpl; auto.
  intros [Hf Hs]. destruct (Z.eqb_spec k k'); simpl; auto. split; auto. by apply Forall_lremove.
Qed.

(** ** Lookup *)

Lemma get_inorder k t : sorted (inorder t) -> get k t = lget k (inorder t).
Proof.
  induction t as [|b k' v' l IHl r IHr]; simpl; auto.
  rewrite sorted_node. intros (Hl & Hr & Hfl & Hfr).
  destruct (Z.compare_spec k k').
  - subst. rewrite lget_app_r by done. simpl. by rewrite Z.eqb_refl.
  - rewrite lget_app_l; auto.
  - rewrite lget_app_r.
    + simpl. destruct (Z.eqb_spec k k'); [lia|auto].
    + eapply Forall_impl; [exact Hfl|]; simpl; intros; lia.
Qed.

Lemma left_inorder t : left t = head (inorder t).
Proof.
  induction t as [|b k v l IHl r IHr]; simpl; auto.
  destruct l as [|bl kl vl ll rl]; auto.
  rewrite IHl. cbn [inorder]. by destruct (inorder ll).
Qed.

(** ** Balance invariant *)

Inductive avl : tree -> nat -> Prop :=
| avl_leaf : avl Leaf 0
| avl_e k v l r h : avl l h -> avl r h -> avl (Node BE k v l r) (S h)
| avl_l k v l r h : avl l (S h) -> avl r h -> avl (Node BL k v l r) (S (S h))
| avl_r k v l r h : avl l h -> avl r (S h) -> avl (Node BR k v l r) (S (S h)).
Hint Constructors avl : core.

Definition is_even_node (t : tree) : Prop := match t with Node BE _ _ _ _ => True | _ => False end.

Ltac inv H := inversion H; clear H; subst.

(** A grown child: either a fresh node under a formerly empty slot or an unbalanced node. *)
Definition grown (t : tree) (h : nat) : Prop := h = 0%nat ∨ ¬ is_even_node t.

Lemma putFix_L b k v l' r h :
  match b with BE => avl r h | BL => (∃ h', h = S h' ∧ avl r h') | BR => avl r (S h) end ->
  avl l' (S h) -> grown l' h ->
  ∃ t' f, putFix DL (Node b k v l' r) = Some (t', f) ∧
    inorder t' = inorder l' ++ (k, v) :: inorder r ∧
    match b with
    | BE => f = true ∧ avl t' (S (S h)) ∧ ¬ is_even_node t'
    | BR => f = false ∧ avl t' (S (S h))
    | BL => f = false ∧ avl t' (S h)
    end.
Proof.
  intros Hb Hl Hg. destruct b; simpl.
  - destruct Hb as [h' [-> Hr]]. destruct Hg as [?|Hg]; [done|].
    inv Hl; try (exfalso; apply Hg; exact I).
    + eexists _, _. simpl. split; [reflexivity|]. simpl. split; [by rewrite <-?app_assoc|auto].
    + match goal with H : avl r0 (S _) |- _ => inv H end;
      (eexists _, _; simpl; split; [reflexivity|]; simpl; split;
       [rewrite <-?app_assoc; simpl; rewrite <-?app_assoc; simpl; done|auto 10]).
  - eexists _, _. split; [reflexivity|]. simpl. repeat split; auto.
  - eexists _, _. split; [reflexivity|]. simpl. repeat split; auto.
Qed.

Lemma putFix_R b k v l r' h :
  match b with BE => avl l h | BR => (∃ h', h = S h' ∧ avl l h') | BL => avl l (S h) end ->
  avl r' (S h) -> grown r' h ->
  ∃ t' f, putFix DR (Node b k v l r') = Some (t', f) ∧
    inorder t' = inorder l ++ (k, v) :: inorder r' ∧
    match b with
    | BE => f = true ∧ avl t' (S (S h)) ∧ ¬ is_even_node t'
    | BL => f = false ∧ avl t' (S (S h))
    | BR => f = false ∧ avl t' (S h)
    end.
Proof.
  intros Hb Hl Hg. destruct b; simpl.
  - eexists _, _. split; [reflexivity|]. simpl. repeat split; auto.
  - eexists _, _. split; [reflexivity|]. simpl. repeat split; auto.
  - destruct Hb as [h' [-> Hr]]. destruct Hg as [?|Hg]; [done|].
    inv Hl; try (exfalso; apply Hg; exact I).
    + match goal with H : avl l0 (S _) |- _ => inv H end;
      (eexists _, _; simpl; split; [reflexivity|]; simpl; split;
       [rewrite <-?app_assoc; simpl; rewrite <-?app_assoc; simpl; done|auto 10]).
    + eexists _, _. simpl. split; [reflexivity|]. simpl. split;
      [rewrite <-?app_assoc; simpl; done|auto].
Qed.

Definition has_key (k : Z) (l : list (Z * V)) : bool := bool_decide (is_Some (lget k l)).

Lemma put_spec k v t h :
  avl t h -> sorted (inorder t) ->
  ∃ t' f new, put k v t = Some (t', f, new) ∧
    inorder t' = linsert k v (inorder t) ∧
    avl t' (if f then S h else h) ∧
    (f = true -> grown t' h) ∧
    new = negb (has_key k (inorder t)).
Proof.
  intros Ha. induction Ha as [|k' v' l r h Hl IHl Hr IHr|k' v' l r h Hl IHl Hr IHr|k' v' l r h Hl IHl Hr IHr];
    cbn [inorder]; intros Hs.
  - eexists _, _, _. split; [reflexivity|]. simpl. repeat split; auto. by left.
  - pose proof Hs as Hs0. rewrite sorted_node in Hs. destruct Hs as (Hsl & Hsr & Hfl & Hfr).
    cbn [put]. destruct (Z.compare_spec k k').
    + subst. eexists _, _, _. split; [reflexivity|]. simpl.
      rewrite linsert_app_r by done. simpl. rewrite Z.compare_refl. repeat split; auto; [done|].
      unfold has_key. rewrite lget_app_r by done. simpl. rewrite Z.eqb_refl. by rewrite bool_decide_true by eauto.
    + destruct IHl as (l' & f & new & E & Hi & Ha' & Hg & Hn); auto. setoid_rewrite E; cbn [mbind option_bind].
      assert (Hn' : new = negb (has_key k (inorder l ++ (k', v') :: inorder r))).
      { subst new. unfold has_key. by rewrite lget_app_l. }
      destruct f.
      * destruct (putFix_L BE k' v' l' r h) as (t' & f & Ef & Hit & Hb & Hat & Hne); auto.
        setoid_rewrite Ef. simpl. eexists _, _, _. split; [reflexivity|].
        rewrite Hit, Hi, linsert_app_l by done. subst f. repeat split; auto. intros _; by right.
      * eexists _, _, _. split; [reflexivity|]. simpl. rewrite Hi, linsert_app_l by done. repeat split; auto; done.
    + assert (Hfl' : Forall (fun a : Z * V => a.1 < k) (inorder l)).
      { eapply Forall_impl; [exact Hfl|]; simpl; intros; lia. }
      assert (C : Z.compare k k' = Gt) by (apply Z.compare_gt_iff; lia).
      destruct IHr as (r' & f & new & E & Hi & Ha' & Hg & Hn); auto. setoid_rewrite E; cbn [mbind option_bind].
      assert (Hn' : new = negb (has_key k (inorder l ++ (k', v') :: inorder r))).
      { subst new. unfold has_key. rewrite lget_app_r by done. simpl. destruct (Z.eqb_spec k k'); [lia|done]. }
      destruct f.
      * destruct (putFix_R BE k' v' l r' h) as (t' & f & Ef & Hit & Hb & Hat & Hne); auto.
        setoid_rewrite Ef. simpl. eexists _, _, _. split; [reflexivity|].
        rewrite Hit, Hi, linsert_app_r by done. simpl. rewrite C. subst f. repeat split; auto. intros _; by right.
      * eexists _, _, _. split; [reflexivity|]. simpl. rewrite Hi, linsert_app_r by done. simpl. rewrite C.
        repeat split; auto; done.
  - pose proof Hs as Hs0. rewrite sorted_node in Hs. destruct Hs as (Hsl & Hsr & Hfl & Hfr).
    cbn [put]. destruct (Z.compare_spec k k').
    + subst. eexists _, _, _. split; [reflexivity|]. simpl.
      rewrite linsert_app_r by done. simpl. rewrite Z.compare_refl. repeat split; auto; [done|].
      unfold has_key. rewrite lget_app_r by done. simpl. rewrite Z.eqb_refl. by rewrite bool_decide_true by eauto.
    + destruct IHl as (l' & f & new & E & Hi & Ha' & Hg & Hn); auto. setoid_rewrite E; cbn [mbind option_bind].
      assert (Hn' : new = negb (has_key k (inorder l ++ (k', v') :: inorder r))).
      { subst new. unfold has_key. by rewrite lget_app_l. }
      destruct f.
      * destruct (putFix_L BL k' v' l' r (S h)) as (t' & f & Ef & Hit & Hb & Hat); auto.
        { eauto. }
        setoid_rewrite Ef. simpl. eexists _, _, _. split; [reflexivity|].
        rewrite Hit, Hi, linsert_app_l by done. subst f. repeat split; auto; done.
      * eexists _, _, _. split; [reflexivity|]. simpl. rewrite Hi, linsert_app_l by done. repeat split; auto; done.
    + assert (Hfl' : Forall (fun a : Z * V => a.1 < k) (inorder l)).
      { eapply Forall_impl; [exact Hfl|]; simpl; intros; lia. }
      assert (C : Z.compare k k' = Gt) by (apply Z.compare_gt_iff; lia).
      destruct IHr as (r' & f & new & E & Hi & Ha' & Hg & Hn); auto. setoid_rewrite E; cbn [mbind option_bind].
      assert (Hn' : new = negb (has_key k (inorder l ++ (k', v') :: inorder r))).
      { subst new. unfold has_key. rewrite lget_app_r by done. simpl. destruct (Z.eqb_spec k k'); [lia|done]. }
      destruct f.
      * destruct (putFix_R BL k' v' l r' h) as (t' & f & Ef & Hit & Hb & Hat); auto.
        setoid_rewrite Ef. simpl. eexists _, _, _. split; [reflexivity|].
        rewrite Hit, Hi, linsert_app_r by done. simpl. rewrite C. subst f. repeat split; auto; done.
      * eexists _, _, _. split; [reflexivity|]. simpl. rewrite Hi, linsert_app_r by done. simpl. rewrite C.
        repeat split; auto; done.
  - pose proof Hs as Hs0. rewrite sorted_node in Hs. destruct Hs as (Hsl & Hsr & Hfl & Hfr).
    cbn [put]. destruct (Z.compare_spec k k').
    + subst. eexists _, _, _. split; [reflexivity|]. simpl.
      rewrite linsert_app_r by done. simpl. rewrite Z.compare_refl. repeat split; auto; [done|].
      unfold has_key. rewrite lget_app_r by done. simpl. rewrite Z.eqb_refl. by rewrite bool_decide_true by eauto.
    + destruct IHl as (l' & f & new & E & Hi & Ha' & Hg & Hn); auto. setoid_rewrite E; cbn [mbind option_bind].
      assert (Hn' : new = negb (has_key k (inorder l ++ (k', v') :: inorder r))).
      { subst new. unfold has_key. by rewrite lget_app_l. }
      destruct f.
      * destruct (putFix_L BR k' v' l' r h) as (t' & f & Ef & Hit & Hb & Hat); auto.
        setoid_rewrite Ef. simpl. eexists _, _, _. split; [reflexivity|].
        rewrite Hit, Hi, linsert_app_l by done. subst f. repeat split; auto; done.
      * eexists _, _, _. split; [reflexivity|]. simpl. rewrite Hi, linsert_app_l by done. repeat split; auto; done.
    + assert (Hfl' : Forall (fun a : Z * V => a.1 < k) (inorder l)).
      { eapply Forall_impl; [exact Hfl|]; simpl; intros; lia. }
      assert (C : Z.compare k k' = Gt) by (apply Z.compare_gt_iff; lia).
      destruct IHr as (r' & f & new & E & Hi & Ha' & Hg & Hn); auto. setoid_rewrite E; cbn [mbind option_bind].
      assert (Hn' : new = negb (has_key k (inorder l ++ (k', v') :: inorder r))).
      { subst new. unfold has_key. rewrite lget_app_r by done. simpl. destruct (Z.eqb_spec k k'); [lia|done]. }
      destruct f.
      * destruct (putFix_R BR k' v' l r' (S h)) as (t' & f & Ef & Hit & Hb & Hat); auto.
        { eauto. }
        setoid_rewrite Ef. simpl. eexists _, _, _. split; [reflexivity|].
        rewrite Hit, Hi, linsert_app_r by done. simpl. rewrite C. subst f. repeat split; auto; done.
      * eexists _, _, _. split; [reflexivity|]. simpl. rewrite Hi, linsert_app_r by done. simpl. rewrite C.
        repeat split; auto; done.
Qed.

(** ** Removal *)

(** removeFix DR: the left subtree has shrunk to height h. *)
Lemma removeFix_R b k v l' r h :
  match b with BE => avl r (S h) | BL => avl r h | BR => avl r (S (S h)) end ->
  avl l' h ->
  ∃ t' f, removeFix DR (Node b k v l' r) = Some (t', f) ∧
    inorder t' = inorder l' ++ (k, v) :: inorder r ∧
    let H := match b with BE => S (S h) | BL => S (S h) | BR => S (S (S h)) end in
    ∃ h', avl t' h' ∧ H = (if f then S h' else h').
Proof.
  intros Hb Hl. destruct b; simpl.
  - eexists _, _. split; [reflexivity|]. simpl. split; auto. exists (S h). split; auto.
  - eexists _, _. split; [reflexivity|]. simpl. split; auto. eexists. split; auto. by apply avl_r.
  - inv Hb.
    + eexists _, _. simpl. split; [reflexivity|]. simpl. rewrite <-?app_assoc. split; [done|].
      eexists; split; [|reflexivity]. auto.
    + match goal with H : avl l (S _) |- _ => inv H end;
      (eexists _, _; simpl; split; [reflexivity|]; simpl; split;
       [rewrite <-?app_assoc; simpl; rewrite <-?app_assoc; simpl; done|
        eexists; split; [|reflexivity]; auto 10]).
    + eexists _, _. simpl. split; [reflexivity|]. simpl. rewrite <-?app_assoc. split; [done|].
      eexists; split; [|reflexivity]. auto.
Qed.

Lemma removeFix_L b k v l r' h :
  match b with BE => avl l (S h) | BR => avl l h | BL => avl l (S (S h)) end ->
  avl r' h ->
  ∃ t' f, removeFix DL (Node b k v l r') = Some (t', f) ∧
    inorder t' = inorder l ++ (k, v) :: inorder r' ∧
    let H := match b with BE => S (S h) | BR => S (S h) | BL => S (S (S h)) end in
    ∃ h', avl t' h' ∧ H = (if f then S h' else h').
Proof.
  intros Hb Hl. destruct b; simpl.
  - inv Hb.
    + eexists _, _. simpl. split; [reflexivity|]. simpl. rewrite <-?app_assoc. split; [done|].
      eexists; split; [|reflexivity]. auto.
    + eexists _, _. simpl. split; [reflexivity|]. simpl. rewrite <-?app_assoc. split; [done|].
      eexists; split; [|reflexivity]. auto.
    + match goal with H : avl r (S _) |- _ => inv H end;
      (eexists _, _; simpl; split; [reflexivity|]; simpl; split;
       [rewrite <-?app_assoc; simpl; rewrite <-?app_assoc; simpl; done|
        eexists; split; [|reflexivity]; auto 10]).
  - eexists _, _. split; [reflexivity|]. simpl. split; auto. eexists. split; auto. by apply avl_l.
  - eexists _, _. split; [reflexivity|]. simpl. split; auto. exists (S h). split; auto.
Qed.

Lemma avl_leaf_inv h : avl Leaf h -> h = 0%nat.
Proof. by inversion 1. Qed.

Lemma removeMin_spec t h :
  avl t h -> t ≠ Leaf ->
  ∃ t' kv f, removeMin t = Some (t', kv, f) ∧ inorder t = kv :: inorder t' ∧
    ∃ h', avl t' h' ∧ h = (if f then S h' else h').
Proof.
  induction 1 as [|k v l r h Hl IHl Hr IHr|k v l r h Hl IHl Hr IHr|k v l r h Hl IHl Hr IHr]; [done|..];
    intros _; (destruct l as [|bl kl vl ll rl]; cbn [removeMin];
      [eexists _, _, _; split; [reflexivity|]; simpl; split; [done|];
       apply avl_leaf_inv in Hl; (done || (try subst h; eexists; split; [eassumption|done]))|]);
    destruct IHl as (l' & kv & f & E & Hi & h' & Ha' & Hh); try done;
    setoid_rewrite E; cbn [mbind option_bind].
  - destruct f; subst h.
    + destruct (removeFix_R BE k v l' r h') as (t' & f' & Ef & Hit & h'' & Ha'' & Hh''); auto.
      setoid_rewrite Ef. simpl. eexists _, _, _. split; [reflexivity|].
      split; [cbn [inorder] in *; rewrite Hit, Hi; done|]. eexists; split; [exact Ha''|]. auto.
    + eexists _, _, _. split; [reflexivity|].
      split; [cbn [inorder] in *; rewrite Hi; done|]. eexists. split; [|reflexivity]. auto.
  - destruct f.
    + injection Hh as Hh. subst h'.
      destruct (removeFix_R BL k v l' r h) as (t' & f' & Ef & Hit & h'' & Ha'' & Hh''); auto.
      setoid_rewrite Ef. simpl. eexists _, _, _. split; [reflexivity|].
      split; [cbn [inorder] in *; rewrite Hit, Hi; done|]. eexists; split; [exact Ha''|]. auto.
    + subst h'. eexists _, _, _. split; [reflexivity|].
      split; [cbn [inorder] in *; rewrite Hi; done|]. eexists. split; [|reflexivity]. auto.
  - destruct f; subst h.
    + destruct (removeFix_R BR k v l' r h') as (t' & f' & Ef & Hit & h'' & Ha'' & Hh''); auto.
      setoid_rewrite Ef. simpl. eexists _, _, _. split; [reflexivity|].
      split; [cbn [inorder] in *; rewrite Hit, Hi; done|]. eexists; split; [exact Ha''|]. auto.
    + eexists _, _, _. split; [reflexivity|].
      split; [cbn [inorder] in *; rewrite Hi; done|]. eexists. split; [|reflexivity]. auto.
Qed.

(** The height of the tree with root balance b whose children have the given heights. *)
Lemma avl_node_inv b k v l r H :
  avl (Node b k v l r) H ->
  ∃ hl hr, avl l hl ∧ avl r hr ∧
    match b with
    | BE => hl = hr ∧ H = S hl
    | BL => hl = S hr ∧ H = S hl
    | BR => hr = S hl ∧ H = S hr
    end.
Proof. inversion 1; subst; eauto 10. Qed.

Lemma remove_spec k t h :
  avl t h -> sorted (inorder t) ->
  ∃ t' f found, remove k t = Some (t', f, found) ∧
    inorder t' = lremove k (inorder t) ∧
    found = has_key k (inorder t) ∧
    ∃ h', avl t' h' ∧ h = (if f then S h' else h').
Proof.
  revert h. induction t as [|b k' v' l IHl r IHr]; intros h Ha Hs.
  - simpl. eexists _, _, _. split; [reflexivity|]. simpl. repeat split. eauto.
  - cbn [inorder] in *. rewrite sorted_node in Hs. destruct Hs as (Hsl & Hsr & Hfl & Hfr).
    pose proof (avl_node_inv _ _ _ _ _ _ Ha) as (hl & hr & Hal & Har & Hb).
    cbn [remove]. destruct (Z.compare_spec k k').
    + subst k'.
      assert (Hrem : lremove k (inorder l ++ (k, v') :: inorder r) = inorder l ++ inorder r).
      { rewrite lremove_app_r by done. simpl. by rewrite Z.eqb_refl. }
      assert (Hkey : has_key k (inorder l ++ (k, v') :: inorder r) = true).
      { unfold has_key. rewrite lget_app_r by done. simpl. rewrite Z.eqb_refl. by rewrite bool_decide_true by eauto. }
      rewrite Hrem, Hkey.
      destruct r as [|br kr vr lr rr].
      * eexists _, _, _. split; [reflexivity|]. simpl. rewrite app_nil_r. repeat split; auto.
        apply avl_leaf_inv in Har. subst hr. exists hl. split; auto. destruct b; destruct Hb as [? ?]; subst; done.
      * destruct (removeMin_spec _ _ Har) as (r' & [mk mv] & f & E & Hi & h' & Ha' & Hh); [done|].
        setoid_rewrite E. cbn [mbind option_bind]. destruct f.
        -- destruct (removeFix_L b mk mv l r' h') as (t' & f' & Ef & Hit & h'' & Ha'' & Hh''); auto.
           { destruct b; destruct Hb as [Hb1 Hb2]; subst; simplify_eq; auto. }
           setoid_rewrite Ef. simpl. eexists _, _, _. split; [reflexivity|].
           rewrite Hit. rewrite <-Hi. repeat split; auto. eexists; split; [exact Ha''|].
           rewrite <-Hh''. destruct b; destruct Hb as [Hb1 Hb2]; subst; simplify_eq; auto.
        -- eexists _, _, _. split; [reflexivity|]. rewrite Hi. repeat split; auto.
           eexists. split; [|reflexivity]. subst hr. destruct b; destruct Hb as [Hb1 Hb2]; subst; simplify_eq; auto.
    + destruct (IHl hl) as (l' & f & found & E & Hi & Hfound & h' & Ha' & Hh); auto.
      setoid_rewrite E. cbn [mbind option_bind].
      assert (Hrem : lremove k (inorder l ++ (k', v') :: inorder r) = inorder l' ++ (k', v') :: inorder r).
      { rewrite lremove_app_l by done. by rewrite Hi. }
      assert (Hkey : found = has_key k (inorder l ++ (k', v') :: inorder r)).
      { subst found. unfold has_key. by rewrite lget_app_l. }
      rewrite Hrem. destruct f.
      * destruct (removeFix_R b k' v' l' r h') as (t' & f' & Ef & Hit & h'' & Ha'' & Hh''); auto.
        { destruct b; destruct Hb as [Hb1 Hb2]; subst; simplify_eq; auto. }
        setoid_rewrite Ef. simpl. eexists _, _, _. split; [reflexivity|].
        rewrite Hit. repeat split; auto. eexists; split; [exact Ha''|].
        rewrite <-Hh''. destruct b; destruct Hb as [Hb1 Hb2]; subst; simplify_eq; auto.
      * eexists _, _, _. split; [reflexivity|]. cbn [inorder]. repeat split; auto.
        eexists. split; [|reflexivity]. subst hl. destruct b; destruct Hb as [Hb1 Hb2]; subst; simplify_eq; auto.
    + assert (Hfl' : Forall (fun a : Z * V => a.1 < k) (inorder l)).
      { eapply Forall_impl; [exact Hfl|]; simpl; intros; lia. }
      destruct (IHr hr) as (r' & f & found & E & Hi & Hfound & h' & Ha' & Hh); auto.
      setoid_rewrite E. cbn [mbind option_bind].
      assert (Hne : Z.eqb k k' = false) by (apply Z.eqb_neq; lia).
      assert (Hrem : lremove k (inorder l ++ (k', v') :: inorder r) = inorder l ++ (k', v') :: inorder r').
      { rewrite lremove_app_r by done. simpl. by rewrite Hne, Hi. }
      assert (Hkey : found = has_key k (inorder l ++ (k', v') :: inorder r)).
      { subst found. unfold has_key. rewrite lget_app_r by done. simpl. by rewrite Hne. }
      rewrite Hrem. destruct f.
      * destruct (removeFix_L b k' v' l r' h') as (t' & f' & Ef & Hit & h'' & Ha'' & Hh''); auto.
        { destruct b; destruct Hb as [Hb1 Hb2]; subst; simplify_eq; auto. }
        setoid_rewrite Ef. simpl. eexists _, _, _. split; [reflexivity|].
        rewrite Hit. repeat split; auto. eexists; split; [exact Ha''|].
        rewrite <-Hh''. destruct b; destruct Hb as [Hb1 Hb2]; subst; simplify_eq; auto.
      * eexists _, _, _. split; [reflexivity|]. cbn [inorder]. repeat split; auto.
        eexists. split; [|reflexivity]. subst hr. destruct b; destruct Hb as [Hb1 Hb2]; subst; simplify_eq; auto.
Qed.

End avl.
