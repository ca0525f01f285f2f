(** Where the content of a store comes from: whatever happens to it, it holds nothing but what was put in, and nothing
    more often than it was put in. *)
From stdpp Require Import prelude gmap strings.
From Verif.Base Require Import GoInt Envelope.
From Verif.Store Require Import Avl AvlProofs GoHeap GoHeapProofs Model Spec SpecFrom ProofsBase ProofsHist ProofsAcct ProofsGet ProofsRoom.
Open Scope Z_scope.

(** What is stored under each source is part of B. *)
Definition within (B : string -> list envelope) (s : store) : Prop := ∀ src, (stored s src).*2 ⊆+ B src.

(** what one call adds *)
Definition put_by (src : string) (o : op) : list envelope :=
  match o with OPut e x _ => if decide (x = src) then [e] else [] | _ => [] end.

Lemma puts_to_cons src o ops : puts_to src (o :: ops) = put_by src o ++ puts_to src ops.
Proof. unfold puts_to, put_by. destruct o as [e x now| | |]; cbn; [case_decide|..]; done. Qed.

Lemma base_of_sub max l : (base_of max l).*2 ⊆+ l.*2.
Proof.
  unfold base_of. destruct (_ <=? _); [|done]. destruct l as [|x l]; cbn; [done|]. by apply submseteq_cons.
Qed.

Lemma step_within B s o s' :
  inv s -> within B s -> step s o = Some s' -> within (fun src => B src ++ put_by src o) s'.
Proof.
  intros Hi HB Hs x. destruct o as [e src now|q pri now|src q|]; cbn [step put_by] in *.
  - destruct (put_env_spec e src now s (inv_max s Hi) (inv_tree s Hi src))
      as (f & sg' & _ & _ & _ & _ & Hent & _ & _ & _ & E).
    rewrite E in Hs. injection Hs as <-. case_decide as Hd; [subst x|].
    + rewrite stored_insert_eq, Hent. etransitivity; [apply linsert_snd_sub|].
      apply submseteq_app; [|done]. etransitivity; [apply base_of_sub|]. rewrite <-stored_entries. apply HB.
    + rewrite stored_insert_ne by done. rewrite app_nil_r. apply HB.
  - rewrite app_nil_r. etransitivity; [|apply HB]. destruct (truncate_sub _ _ _ _ _ Hi Hs x) as [r Hr]. rewrite Hr, fmap_app.
    apply submseteq_inserts_l. done.
  - rewrite app_nil_r. destruct (get_env src q s); [|done]. cbn in Hs. injection Hs as <-. apply HB.
  - rewrite app_nil_r. injection Hs as <-. apply HB.
Qed.

Lemma run_within ops : ∀ B s s',
  inv s -> within B s -> run s ops = Some s' -> inv s' ∧ within (fun src => B src ++ puts_to src ops) s'.
Proof.
  induction ops as [|o ops IH]; intros B s s' Hi HB E; cbn [run] in E.
  - injection E as <-. split; [done|]. intros src. cbn. rewrite app_nil_r. apply HB.
  - destruct (step s o) as [s1|] eqn:Es; [|done]. cbn in E.
    destruct (step_inv s o s1 Hi Es) as [Hi1 _]. destruct (IH _ _ _ Hi1 (step_within _ _ _ _ Hi HB Es) E) as [H1 H2].
    split; [done|]. intros src. specialize (H2 src). by rewrite puts_to_cons, app_assoc.
Qed.

Lemma new_within B m : within B (new_store m).
Proof. intros src. unfold stored. cbn. rewrite lookup_empty. cbn. apply submseteq_nil_l. Qed.

Lemma Forall2_fmap_l' {A B C} (f : A -> B) (P : B -> C -> Prop) l k : Forall2 (fun x y => P (f x) y) l k -> Forall2 P (f <$> l) k.
Proof. induction 1; by constructor. Qed.

Lemma get_within B s src q res :
  within B s -> get_env src q s = Some res -> drawn q (B src) res.
Proof.
  intros HB Hg. destruct (get_sound _ _ _ _ Hg) as (sub & Hsub & HF).
  exists (sub.*2). split; [|by apply Forall2_fmap_l'].
  etransitivity; [|apply HB]. apply fmap_submseteq. apply sublist_submseteq in Hsub.
  etransitivity; [exact Hsub|]. destruct (q_desc q); [|done]. by rewrite reverse_Permutation.
Qed.

Lemma drawn_elem q l res e' : drawn q l res -> e' ∈ res -> ∃ e, e ∈ l ∧ selected q e e'.
Proof.
  intros (sub & Hsub & HF) Hin. apply elem_of_list_lookup in Hin as (i & Hi).
  destruct (Forall2_lookup_r _ _ _ _ _ HF Hi) as (e & He & Hsel). exists e. split; [|done].
  eapply elem_of_submseteq; [|done]. by eapply elem_of_list_lookup_2.
Qed.

Lemma drawn_mono q l l' res : l ⊆+ l' -> drawn q l res -> drawn q l' res.
Proof. intros H (sub & Hsub & HF). exists sub. split; [by etransitivity|done]. Qed.

Lemma get_written m ops s src q res :
  1 <= m -> run (new_store m) ops = Some s -> get_env src q s = Some res -> drawn q (puts_to src ops) res.
Proof.
  intros Hm Hr Hg.
  destruct (run_within ops (fun _ => []) (new_store m) s (inv_new m Hm) (new_within _ _) Hr) as [_ HW].
  exact (get_within _ _ _ _ _ HW Hg).
Qed.
