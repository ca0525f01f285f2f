(** container/heap: Push and Pop keep the heap order; Pop returns a minimum. *)
From stdpp Require Import prelude.
From Coq Require Import ZifyBool ZifyNat.
From Verif.Store Require Import GoHeap.
Open Scope Z_scope.

Ltac Zify.zify_post_hook ::= Z.div_mod_to_equations.

Section heap.
Context {A : Type} (key : A -> Z).
Implicit Types h : list A.

Definition kat h (i : nat) : Z := from_option key 0 (h !! i).

Lemma hless_spec h i j : (i < length h)%nat -> (j < length h)%nat -> hless key h i j = (kat h i <? kat h j).
Proof.
  intros Hi Hj. unfold hless, kat.
  destruct (lookup_lt_is_Some_2 h i Hi) as [x ->]. destruct (lookup_lt_is_Some_2 h j Hj) as [y ->]. done.
Qed.

Lemma hswap_length h i j : length (hswap h i j) = length h.
Proof. unfold hswap. destruct (h !! i), (h !! j); rewrite ?insert_length; auto. Qed.

Lemma hswap_lookup h i j k :
  (i < length h)%nat -> (j < length h)%nat ->
  hswap h i j !! k = if decide (k = i) then h !! j else if decide (k = j) then h !! i else h !! k.
Proof.
  intros Hi Hj. unfold hswap.
  destruct (lookup_lt_is_Some_2 h i Hi) as [x Hx]. destruct (lookup_lt_is_Some_2 h j Hj) as [y Hy].
  rewrite Hx, Hy.
  destruct (decide (k = i)) as [->|].
  { rewrite list_lookup_insert; auto. by rewrite insert_length. }
  rewrite list_lookup_insert_ne by auto.
  destruct (decide (k = j)) as [->|].
  { rewrite list_lookup_insert; auto. }
  rewrite list_lookup_insert_ne; auto.
Qed.

Lemma hswap_kat h i j k :
  (i < length h)%nat -> (j < length h)%nat ->
  kat (hswap h i j) k = if decide (k = i) then kat h j else if decide (k = j) then kat h i else kat h k.
Proof.
  intros. unfold kat. rewrite hswap_lookup by done. repeat case_decide; auto.
Qed.

Lemma hswap_perm h i j : hswap h i j ≡ₚ h.
Proof.
  unfold hswap.
  destruct (h !! i) as [x|] eqn:Hx; auto. destruct (h !! j) as [y|] eqn:Hy; auto.
  destruct (decide (i = j)) as [->|Hne].
  { assert (x = y) by congruence. subst.
    rewrite list_insert_insert. rewrite list_insert_id by done. done. }
  rewrite (list_insert_commute _ i j) by done.
  apply Permutation_inj. split.
  { by rewrite !insert_length. }
  exists (fun k => if decide (k = i) then j else if decide (k = j) then i else k).
  split.
  { intros a b. repeat case_decide; congruence. }
  intros k. pose proof (lookup_lt_Some _ _ _ Hx). pose proof (lookup_lt_Some _ _ _ Hy).
  rewrite (list_insert_commute _ j i) by done.
  repeat case_decide; subst.
  - by rewrite list_lookup_insert by (rewrite insert_length; lia).
  - rewrite list_lookup_insert_ne by auto. by rewrite list_lookup_insert by lia.
  - by rewrite !list_lookup_insert_ne by auto.
Qed.

Definition parent (i : nat) : nat := ((i - 1) / 2)%nat.

(** heap order on the first n elements *)
Definition heap_ok (n : nat) h : Prop := ∀ i, (0 < i < n)%nat -> kat h (parent i) <= kat h i.

(** *** up *)
Lemma hup_length fuel : ∀ h j, length (hup key fuel h j) = length h.
Proof.
  induction fuel as [|fuel IH]; intros h j; cbn [hup]; auto. destruct (_ || _); auto.
  by rewrite IH, hswap_length.
Qed.

Lemma hup_perm fuel : ∀ h j, hup key fuel h j ≡ₚ h.
Proof.
  induction fuel as [|fuel IH]; intros h j; cbn [hup]; auto. destruct (_ || _); auto.
  by rewrite IH, hswap_perm.
Qed.

Lemma hup_ok fuel : ∀ h j,
  (j < length h)%nat -> (j < fuel)%nat ->
  (∀ k, (0 < k < length h)%nat -> k ≠ j -> kat h (parent k) <= kat h k) ->
  (∀ k, (0 < k < length h)%nat -> parent k = j -> (0 < j)%nat -> kat h (parent j) <= kat h k) ->
  heap_ok (length h) (hup key fuel h j).
Proof.
  induction fuel as [|fuel IH]; intros h j Hj Hf H1 H2; [lia|].
  cbn [hup]. fold (parent j). case_bool_decide as Hij; cbn [orb].
  - assert (j = 0%nat) by (unfold parent in Hij; lia). subst j.
    intros k Hk. apply H1; lia.
  - assert (Hlt : (parent j < j)%nat) by (unfold parent in *; lia).
    rewrite hless_spec by lia.
    destruct (Z.ltb_spec (kat h j) (kat h (parent j))) as [Hless|Hge]; simpl.
    + rewrite <-(hswap_length h (parent j) j). apply IH; rewrite ?hswap_length; try lia.
      * intros k Hk Hne. rewrite !hswap_kat by lia.
        destruct (decide (k = parent j)); [done|].
        destruct (decide (k = j)) as [->|].
        { rewrite decide_True by done. lia. }
        destruct (decide (parent k = parent j)) as [E|].
        { transitivity (kat h (parent j)); [lia|]. rewrite <-E. apply H1; auto. }
        destruct (decide (parent k = j)) as [E|].
        { apply H2; auto. lia. }
        apply H1; auto.
      * intros k Hk Hpk Hp. rewrite !hswap_kat by lia.
        assert (Hpp : (parent (parent j) < parent j)%nat) by (unfold parent in *; lia).
        destruct (decide (k = parent j)); [unfold parent in *; lia|].
        rewrite (decide_False (P := parent (parent j) = parent j)) by lia.
        rewrite (decide_False (P := parent (parent j) = j)) by lia.
        assert (Hpj : kat h (parent (parent j)) <= kat h (parent j)) by (apply H1; lia).
        destruct (decide (k = j)) as [->|]; [done|].
        specialize (H1 k Hk ltac:(done)). rewrite Hpk in H1. lia.
    + intros k Hk. destruct (decide (k = j)) as [->|]; [lia|]. apply H1; auto.
Qed.

Lemma heap_push_perm h x : heap_push key h x ≡ₚ x :: h.
Proof. unfold heap_push. rewrite hup_perm. by rewrite Permutation_app_comm. Qed.

Lemma heap_push_ok h x : heap_ok (length h) h -> heap_ok (S (length h)) (heap_push key h x).
Proof.
  intros Hok. unfold heap_push.
  assert (Hlen : length (h ++ [x]) = S (length h)) by (rewrite app_length; simpl; lia).
  rewrite <-Hlen. apply hup_ok; rewrite ?Hlen; try lia.
  - intros k Hk Hne. assert (k < length h)%nat by lia.
    specialize (Hok k ltac:(lia)). unfold kat in *.
    rewrite !lookup_app_l by (unfold parent; lia). done.
  - intros k Hk Hpk. unfold parent in Hpk. lia.
Qed.

(** *** down *)
Lemma hdown_length fuel : ∀ h i n, length (hdown key fuel h i n) = length h.
Proof.
  induction fuel as [|fuel IH]; intros h i n; cbn [hdown]; auto.
  case_bool_decide; auto. destruct (negb _); auto. by rewrite IH, hswap_length.
Qed.

Lemma hdown_perm fuel : ∀ h i n, hdown key fuel h i n ≡ₚ h.
Proof.
  induction fuel as [|fuel IH]; intros h i n; cbn [hdown]; auto.
  case_bool_decide; auto. destruct (negb _); auto. by rewrite IH, hswap_perm.
Qed.

Lemma hdown_above fuel : ∀ h i n k, (n <= k)%nat -> (n <= length h)%nat -> hdown key fuel h i n !! k = h !! k.
Proof.
  induction fuel as [|fuel IH]; intros h i n k Hk Hn; cbn [hdown]; auto.
  case_bool_decide as H1; auto.
  set (j := if bool_decide (2 * i + 1 + 1 < n)%nat && _ then _ else _).
  assert (Hj : (j < n)%nat).
  { subst j. case_bool_decide; simpl; [destruct (hless _ _ _ _); lia|lia]. }
  destruct (negb _); auto. rewrite IH by (rewrite ?hswap_length; lia).
  rewrite hswap_lookup by lia. rewrite !decide_False by lia. done.
Qed.

Lemma hdown_ok fuel : ∀ h i n,
  (n <= length h)%nat -> (n <= i + fuel)%nat ->
  (∀ k, (0 < k < n)%nat -> parent k ≠ i -> kat h (parent k) <= kat h k) ->
  (∀ k, (0 < k < n)%nat -> parent k = i -> (0 < i)%nat -> kat h (parent i) <= kat h k) ->
  heap_ok n (hdown key fuel h i n).
Proof.
  induction fuel as [|fuel IH]; intros h i n Hn Hf H1 H2; cbn [hdown].
  { intros k Hk. apply H1; [lia|]. unfold parent. lia. }
  case_bool_decide as Hj1.
  { intros k Hk. apply H1; [lia|]. unfold parent. lia. }
  set (j := if bool_decide (2 * i + 1 + 1 < n)%nat && _ then _ else _).
  assert (Hj : ((j = 2 * i + 1 ∨ j = 2 * i + 2) ∧ j < n)%nat).
  { subst j. case_bool_decide; simpl; [destruct (hless _ _ _ _); lia|lia]. }
  assert (Hmin : ∀ k, (0 < k < n)%nat -> parent k = i -> kat h j <= kat h k).
  { intros k Hk Hp. subst j. case_bool_decide as Hj2; cbn [andb].
    - rewrite hless_spec by lia.
      destruct (Z.ltb_spec (kat h (2 * i + 1 + 1)) (kat h (2 * i + 1))).
      + assert (k = 2 * i + 1 ∨ k = 2 * i + 1 + 1)%nat as [->| ->] by (unfold parent in Hp; lia); lia.
      + assert (k = 2 * i + 1 ∨ k = 2 * i + 1 + 1)%nat as [->| ->] by (unfold parent in Hp; lia); lia.
    - assert (k = 2 * i + 1)%nat as -> by (unfold parent in Hp; lia). lia. }
  clearbody j. destruct Hj as [Hjc Hjn].
  assert (Hpj : parent j = i) by (unfold parent; lia).
  rewrite hless_spec by lia.
  destruct (Z.ltb_spec (kat h j) (kat h i)) as [Hlt|Hge]; simpl.
  - apply IH; rewrite ?hswap_length; try lia.
    + intros k Hk Hne. rewrite !hswap_kat by lia.
      destruct (decide (k = i)) as [->|].
      { rewrite (decide_False (P := parent i = i)) by (unfold parent; lia).
        rewrite (decide_False (P := parent i = j)) by (unfold parent; lia).
        apply H2; auto; lia. }
      destruct (decide (parent k = i)) as [E|].
      { destruct (decide (k = j)); [lia|]. apply Hmin; auto. }
      rewrite (decide_False (P := parent k = j)) by done.
      destruct (decide (k = j)) as [->|]; [lia|].
      apply H1; auto.
    + intros k Hk Hp _. rewrite !hswap_kat by lia.
      rewrite (decide_False (P := k = i)) by (unfold parent in Hp; lia).
      rewrite (decide_False (P := k = j)) by (unfold parent in Hp; lia).
      rewrite Hpj. rewrite decide_True by done.
      rewrite <-Hp. apply H1; [lia|]. lia.
  - intros k Hk. destruct (decide (parent k = i)) as [E|].
    + rewrite E. specialize (Hmin k Hk E). lia.
    + apply H1; auto.
Qed.

(** root is a minimum *)
Lemma heap_ok_min h n i : heap_ok n h -> (i < n)%nat -> kat h 0 <= kat h i.
Proof.
  intros Hok. induction (lt_wf i) as [i _ IH]. intros Hi.
  destruct (decide (i = 0%nat)) as [->|]; [lia|].
  transitivity (kat h (parent i)).
  - apply IH; unfold parent; lia.
  - apply Hok. lia.
Qed.

Lemma heap_pop_spec h :
  heap_ok (length h) h -> h ≠ [] ->
  ∃ x h', heap_pop key h = Some (x, h') ∧ h ≡ₚ x :: h' ∧ heap_ok (length h') h' ∧
          Forall (fun y => key x <= key y) h'.
Proof.
  intros Hok Hne. destruct h as [|a h0]; [done|]. clear Hne.
  set (h := a :: h0) in *. set (n := (length h - 1)%nat).
  assert (Hlen : length h = S n) by (subst n h; simpl; lia).
  set (d := hdown key (length h) (hswap h 0 n) 0 n).
  assert (Hd : length d = length h) by (unfold d; by rewrite hdown_length, hswap_length).
  assert (Hlast : d !! n = Some a).
  { unfold d. rewrite hdown_above by (rewrite ?hswap_length; lia).
    rewrite hswap_lookup by lia. destruct (decide (n = 0%nat)) as [E|].
    - rewrite E. done.
    - by rewrite decide_True. }
  assert (Hdn : d = take n d ++ [a]).
  { rewrite <-(take_S_r d n a Hlast). rewrite take_ge; auto. lia. }
  change (heap_pop key h) with (raw_pop d).
  assert (Hl : last d = Some a) by (rewrite Hdn; apply last_snoc).
  unfold raw_pop. rewrite Hl.
  exists a, (take n d). rewrite Hd, Hlen. replace (S n - 1)%nat with n by lia. split; [done|].
  assert (Hp : h ≡ₚ a :: take n d).
  { transitivity d; [symmetry; unfold d; by rewrite hdown_perm, hswap_perm|].
    etrans; [apply reflexive_eq, Hdn|]. by rewrite Permutation_app_comm. }
  split; [done|]. split.
  - assert (Hokd : heap_ok n d).
    { apply hdown_ok; rewrite ?hswap_length; try lia.
      intros k Hk Hpk. rewrite !hswap_kat by lia.
      rewrite (decide_False (P := k = 0%nat)) by lia.
      rewrite (decide_False (P := k = n)) by lia.
      rewrite (decide_False (P := parent k = 0%nat)) by done.
      rewrite (decide_False (P := parent k = n)) by (unfold parent; lia).
      apply Hok. lia. }
    rewrite take_length_le by lia. intros i Hi. specialize (Hokd i Hi).
    unfold kat in *. rewrite !lookup_take by (unfold parent; lia). done.
  - apply Forall_forall. intros y Hy.
    assert (Hin : y ∈ h) by (rewrite Hp; by right).
    apply elem_of_list_lookup in Hin as [i Hi].
    pose proof (heap_ok_min h (length h) i Hok (lookup_lt_Some _ _ _ Hi)) as Hm.
    unfold kat in Hm. rewrite Hi in Hm. done.
Qed.

End heap.
