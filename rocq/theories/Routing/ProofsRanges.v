(** Scheduler ranges and static lookup. *)
From stdpp Require Import prelude gmap strings list.
From Coq Require Import ZifyBool.
From Verif.Base Require Import GoInt Envelope.
From Verif.Store Require Import Avl AvlProofs Model ProofsBase.
From Verif.Routing Require Import Model Spec.
Open Scope Z_scope.

(** ** Scheduler *)
Lemma sched_loop_spec m start x rs s' :
  sched_loop m start x = (rs, s') -> inu64 start ->
  length rs = m ∧ s' = wrapu64 (start + Z.of_nat m * (x + 1)) ∧
  ∀ i r, rs !! i = Some r ->
    r_start r = wrapu64 (start + Z.of_nat i * (x + 1)) ∧ r_end r = wrapu64 (r_start r + x).
Proof.
  revert start rs s'. induction m as [|m IH]; intros start rs s' H Hs; cbn [sched_loop] in H.
  - injection H as <- <-. split; [done|]. split.
    + rewrite <-(wrapu64_id start Hs) at 1. f_equal. lia.
    + intros i r Hr. by rewrite lookup_nil in Hr.
  - destruct (sched_loop m (wrapu64 (start + (x + 1))) x) as [rs0 s0] eqn:E. injection H as <- <-.
    destruct (IH _ _ _ E (wrapu64_range _)) as (Hl & Hs' & Hr). split; [simpl; lia|].
    assert (Hw : ∀ z, wrapu64 (wrapu64 (start + (x + 1)) + z) = wrapu64 (start + (x + 1) + z)).
    { intros z. unfold wrapu64. by rewrite Zplus_mod_idemp_l. }
    split.
    + rewrite Hs', Hw. f_equal. lia.
    + intros [|i] r Hi; simpl in Hi.
      * simplify_eq. simpl. split; [|done]. rewrite <-(wrapu64_id start Hs) at 1. f_equal. lia.
      * destruct (Hr i r Hi) as [H1 H2]. split; [|done]. rewrite H1, Hw. f_equal. lia.
Qed.

Lemma sched_ranges_spec n rs :
  0 < n < 2 ^ 63 -> sched_ranges n = Some rs ->
  let x := max_uint64 / n in
  length rs = Z.to_nat n ∧
  ∀ i r, rs !! i = Some r ->
    r_start r = wrapu64 (Z.of_nat i * (x + 1)) ∧
    r_end r = if decide (Z.of_nat i = n - 1) then max_uint64 else wrapu64 (r_start r + x).
Proof.
  intros Hn. unfold sched_ranges. rewrite (wrapu64_id n) by (unfold inu64; lia).
  destruct (Z.eqb_spec n 0); [lia|].
  destruct (sched_loop _ 0 _) as [l s] eqn:E. intros [= <-].
  destruct (sched_loop_spec _ _ _ _ _ E) as (Hl & Hs & Hr). { unfold inu64; lia. }
  split. { rewrite app_length. simpl. lia. }
  intros i r Hi. apply lookup_app_Some in Hi as [Hi|[Hge Hi]].
  - destruct (Hr i r Hi) as [H1 H2]. apply lookup_lt_Some in Hi.
    rewrite Z.add_0_l in H1. split; [done|]. rewrite decide_False by lia. done.
  - rewrite Hl in *. destruct (i - Z.to_nat (n - 1))%nat as [|k] eqn:Ek; [|done]. simpl in Hi. simplify_eq. simpl.
    assert (Hie : Z.of_nat i = n - 1) by lia.
    rewrite decide_True by done. split; [|done].
    rewrite Z.add_0_l. f_equal. f_equal. lia.
Qed.

Lemma sched_total n : n ≠ 0 -> ∃ rs, sched_ranges n = Some rs.
Proof.
  intros Hn. unfold sched_ranges. destruct (Z.eqb_spec n 0); [done|].
  destruct (sched_loop _ _ _). eauto.
Qed.

Lemma sched_partition n rs :
  1 <= n <= 2 ^ 32 -> sched_ranges n = Some rs -> length rs = Z.to_nat n ∧ partition rs.
Proof.
  intros Hn Hrs. destruct (sched_ranges_spec n rs ltac:(lia) Hrs) as [Hl Hr].
  split; [done|].
  set (M := max_uint64) in *. assert (HM : M = 2 ^ 64 - 1) by reflexivity.
  set (x := M / n) in *.
  assert (Hx1 : n * x <= M < n * x + n).
  { pose proof (Z.div_mod M n ltac:(lia)). pose proof (Z.mod_pos_bound M n ltac:(lia)). fold x in H. lia. }
  assert (Hx : n - 1 <= x).
  { destruct (decide (n - 1 <= x)); [done|exfalso].
    assert (n * x <= n * (n - 2)) by (apply Z.mul_le_mono_nonneg_l; lia).
    assert (n * (n - 1) <= 2 ^ 32 * (2 ^ 32 - 1)) by (apply Z.mul_le_mono_nonneg; lia). lia. }
  assert (Hr' : ∀ i r, rs !! i = Some r ->
     0 <= Z.of_nat i <= n - 1 ∧ r_start r = Z.of_nat i * (x + 1) ∧
     r_end r = if decide (Z.of_nat i = n - 1) then M else Z.of_nat i * (x + 1) + x).
  { intros i r Hi. destruct (Hr i r Hi) as [H1 H2]. apply lookup_lt_Some in Hi.
    assert (Hb : 0 <= Z.of_nat i <= n - 1) by lia. split; [done|].
    assert (Z.of_nat i * (x + 1) <= (n - 1) * (x + 1)) by (apply Z.mul_le_mono_nonneg_r; lia).
    assert (0 <= Z.of_nat i * (x + 1)) by (apply Z.mul_nonneg_nonneg; lia).
    rewrite wrapu64_id in H1 by (unfold inu64; lia). split; [done|].
    rewrite H2, H1. destruct (decide _); [done|].
    assert (Z.of_nat i * (x + 1) <= (n - 2) * (x + 1)) by (apply Z.mul_le_mono_nonneg_r; lia).
    apply wrapu64_id. unfold inu64. lia. }
  split.
  - intros r Hin. apply elem_of_list_lookup in Hin as [i Hi].
    destruct (Hr' i r Hi) as (Hb & -> & ->). destruct (decide _) as [Hd|]; [|lia].
    rewrite Hd. lia.
  - intros h [Hh1 Hh2].
    set (iz := Z.min (h / (x + 1)) (n - 1)).
    assert (Hq : 0 <= h / (x + 1)) by (apply Z.div_pos; lia).
    assert (Hiz : 0 <= iz <= n - 1) by lia.
    destruct (lookup_lt_is_Some_2 rs (Z.to_nat iz)) as [r Hi]; [lia|].
    exists (Z.to_nat iz), r. split; [done|].
    pose proof (Z.div_mod h (x + 1) ltac:(lia)) as Hdm.
    pose proof (Z.mod_pos_bound h (x + 1) ltac:(lia)) as Hmb.
    assert (Hch : ∀ j r', rs !! j = Some r' -> covers r' h -> Z.of_nat j = iz).
    { intros j r' Hj [Hc1 Hc2]. destruct (Hr' j r' Hj) as (Hb & E1 & E2). rewrite E1 in Hc1. rewrite E2 in Hc2.
      destruct (decide _) as [Hd|Hd].
      - assert (Z.of_nat j <= h / (x + 1)) by (apply Z.div_le_lower_bound; lia). lia.
      - assert (h / (x + 1) = Z.of_nat j); [|lia].
        symmetry. apply (Z.div_unique_pos h (x + 1) _ (h - Z.of_nat j * (x + 1))); lia. }
    split.
    + destruct (Hr' _ _ Hi) as (Hb & E1 & E2). unfold covers. rewrite E1, E2.
      rewrite Z2Nat.id in * by lia.
      assert (iz * (x + 1) <= h / (x + 1) * (x + 1)) by (apply Z.mul_le_mono_nonneg_r; lia).
      split; [lia|]. destruct (decide _); [lia|].
      assert (iz = h / (x + 1)) by lia. rewrite H0. lia.
    + intros j r' Hj Hc. specialize (Hch j r' Hj Hc). lia.
Qed.

(** Past 2^32 ranges the last range starts at 0 again. *)
Lemma sched_wraps n rs :
  n = 2 ^ 32 + 1 -> sched_ranges n = Some rs -> ¬ partition rs.
Proof.
  intros En Hrs [_ Hp]. destruct (sched_ranges_spec n rs ltac:(lia) Hrs) as [Hl Hr]. clear Hrs.
  assert (Hx : max_uint64 / n = 2 ^ 32 - 1) by (rewrite En; reflexivity).
  rewrite Hx in Hr.
  destruct (Hp 0) as (i & r & Hi & Hc & Hu). { unfold is_hash; lia. }
  assert (HN : ∃ N, Z.of_nat N = 2 ^ 32). { exists (Z.to_nat (2 ^ 32)). apply Z2Nat.id. lia. }
  destruct HN as [N HN].
  destruct (lookup_lt_is_Some_2 rs 0%nat) as [r0 H0]; [lia|].
  destruct (lookup_lt_is_Some_2 rs N) as [r1 H1]; [lia|].
  assert (0%nat = i).
  { apply (Hu _ _ H0). destruct (Hr _ _ H0) as [E1 E2]. unfold covers. rewrite E2, E1.
    rewrite decide_False by lia. vm_compute; split; discriminate. }
  assert (N = i); [|lia].
  apply (Hu _ _ H1). destruct (Hr _ _ H1) as [E1 E2]. unfold covers. rewrite E2.
  rewrite decide_True by lia. rewrite E1, HN. vm_compute; split; discriminate.
Qed.

(** ** Static lookup *)

Lemma floor_node_spec {V} k (t : tree V) best :
  sorted (inorder t) ->
  (∀ b, best = Some b -> b.1 < k ∧ Forall (fun e => b.1 < e.1) (inorder t)) ->
  match floor_node k t best with
  | Some b => (b ∈ inorder t ∨ best = Some b) ∧ b.1 <= k ∧ Forall (fun e => e.1 <= k -> e.1 <= b.1) (inorder t)
  | None => best = None ∧ Forall (fun e => k < e.1) (inorder t)
  end.
Proof.
  revert best. induction t as [|b0 k' v l IHl r IHr]; intros best Hs Hb; cbn [floor_node].
  - simpl. destruct best as [b|].
    + specialize (Hb b eq_refl) as [H1 _]. split; [by right|]. split; [lia|constructor].
    + split; [done|constructor].
  - cbn [inorder] in *. pose proof Hs as Hs0. rewrite sorted_node in Hs. destruct Hs as (Hsl & Hsr & Hfl & Hfr).
    rewrite Forall_forall in Hfl, Hfr.
    destruct (Z.compare_spec k k') as [->|Hlt|Hgt].
    + split; [left; set_solver|]. simpl. split; [lia|]. apply Forall_forall. intros e _ ?. lia.
    + assert (Hb' : ∀ b, best = Some b -> b.1 < k ∧ Forall (fun e => b.1 < e.1) (inorder l)).
      { intros b Hbb. destruct (Hb b Hbb) as [? HF]. split; [done|]. by apply Forall_app in HF as [? _]. }
      specialize (IHl best Hsl Hb'). destruct (floor_node k l best) as [b|].
      * destruct IHl as (H1 & H2 & H3). split; [set_solver|]. split; [done|].
        apply Forall_app. split; [done|]. constructor; [simpl; lia|].
        apply Forall_forall. intros e He ?. specialize (Hfr e He). simpl in *; lia.
      * destruct IHl as (H1 & H2). split; [done|]. apply Forall_app. split; [done|].
        constructor; [simpl; lia|]. apply Forall_forall. intros e He. specialize (Hfr e He). simpl in *; lia.
    + assert (Hb' : ∀ b, Some (k', v) = Some b -> b.1 < k ∧ Forall (fun e => b.1 < e.1) (inorder r)).
      { intros b [= <-]. split; [done|]. apply Forall_forall. intros e He. specialize (Hfr e He). simpl in *; lia. }
      specialize (IHr (Some (k', v)) Hsr Hb').
      destruct (floor_node k r (Some (k', v))) as [b|]; [|by destruct IHr].
      destruct IHr as (H1 & H2 & H3). split; [destruct H1 as [?|?]; simplify_eq; set_solver|]. split; [done|].
      assert (Hkb : k' <= b.1).
      { destruct H1 as [H1|H1]; simplify_eq; [specialize (Hfr _ H1); simpl in *; lia|done]. }
      apply Forall_app. split; [|constructor; [simpl; lia|done]].
      apply Forall_forall. intros e He ?. specialize (Hfl e He). simpl in *; lia.
Qed.

Lemma linsert_last {V} k (v : V) l : Forall (fun e => e.1 < k) l -> linsert k v l = l ++ [(k, v)].
Proof.
  induction l as [|[k' v'] l IH]; intros H; simpl; [done|].
  apply Forall_cons in H as [H1 H2]. simpl in H1.
  destruct (Z.compare_spec k k'); [lia|lia|]. by rewrite IH.
Qed.

Lemma static_fill_spec m i x t :
  0 < x -> 0 <= i -> (i + Z.of_nat m) * x <= 2 ^ 64 -> avl_ok t ->
  inorder (av_root t) = (fun j => (j * x, j)) <$> seqZ 0 i ->
  ∃ t', static_fill m i x t = Some t' ∧ avl_ok t' ∧
    inorder (av_root t') = (fun j => (j * x, j)) <$> seqZ 0 (i + Z.of_nat m).
Proof.
  intros Hx. revert i t. induction m as [|m IH]; intros i t Hi Hm Hok Hin; cbn [static_fill].
  - exists t. split; [done|]. split; [done|]. rewrite Hin. f_equal. f_equal. lia.
  - rewrite wrapu64_id.
    2:{ unfold inu64. split; [apply Z.mul_nonneg_nonneg; lia|].
        assert ((i + 1) * x <= (i + Z.of_nat (S m)) * x) by (apply Z.mul_le_mono_nonneg_r; lia). lia. }
    destruct (avl_put_ok (i * x) i t Hok) as (t1 & E & Hok1 & Hi1).
    rewrite E. cbn [mbind option_bind].
    destruct (IH (i + 1) t1) as (t' & E' & Hok' & Hin'); [lia| |done| |].
    + replace (i + 1 + Z.of_nat m) with (i + Z.of_nat (S m)) by lia. done.
    + rewrite Hi1, Hin, linsert_last.
      * rewrite (seqZ_app 0 i 1) by lia. rewrite fmap_app. f_equal.
      * apply Forall_fmap, Forall_forall. intros j Hj. apply elem_of_seqZ in Hj. simpl.
        apply Z.mul_lt_mono_pos_r; lia.
    + exists t'. split; [exact E'|]. split; [exact Hok'|]. rewrite Hin'. f_equal. f_equal. lia.
Qed.

Lemma avl_ok_new V : avl_ok (@avl_new V).
Proof. split; [exists 0%nat; constructor|]. done. Qed.

Lemma static_spec n :
  0 < n < 2 ^ 63 ->
  ∃ t, new_static n = Some t ∧
  ∀ h, is_hash h -> ∃ i, static_lookup t h = Some i ∧ static_owner n h i.
Proof.
  intros Hn. unfold new_static. destruct (Z.leb_spec n 0); [lia|].
  set (x := max_uint64 / n) in *.
  assert (HM : max_uint64 = 2 ^ 64 - 1) by reflexivity.
  assert (Hx1 : n * x <= max_uint64).
  { apply Z.mul_div_le. lia. }
  assert (Hx : 0 < x). { apply Z.div_str_pos. lia. }
  destruct (static_fill_spec (Z.to_nat n) 0 x avl_new) as (t & E & Hok & Hin); [done|lia| |apply avl_ok_new|done|].
  { rewrite Z2Nat.id by lia. lia. }
  exists t. split; [exact E|].
  rewrite Z2Nat.id, Z.add_0_l in Hin by lia.
  intros h [Hh1 Hh2]. unfold static_lookup.
  assert (Hs : sorted (inorder (av_root t))) by apply Hok.
  pose proof (floor_node_spec h (av_root t) None Hs) as HF.
  specialize (HF ltac:(done)). rewrite Hin in HF.
  assert (Hmem : ∀ b, b ∈ (fun j => (j * x, j)) <$> seqZ 0 n <-> b.1 = b.2 * x ∧ 0 <= b.2 < n).
  { intros [b1 b2]. rewrite elem_of_list_fmap. simpl. split.
    - intros (j & [= -> ->] & Hj). apply elem_of_seqZ in Hj. lia.
    - intros [-> Hb]. exists b2. split; [done|]. apply elem_of_seqZ. lia. }
  destruct (floor_node h (av_root t) None) as [b|].
  - destruct HF as ([Hb|Hb] & Hle & HF); [|done]. apply Hmem in Hb as [Hb1 Hb2].
    exists b.2. split; [done|]. split; [lia|]. fold x. split; [lia|].
    intros Hlt. rewrite Forall_forall in HF.
    specialize (HF ((b.2 + 1) * x, b.2 + 1)). simpl in HF.
    destruct (decide (h < (b.2 + 1) * x)); [done|exfalso].
    assert ((b.2 + 1) * x <= b.1); [|lia].
    apply HF; [|lia]. apply Hmem. simpl. lia.
  - destruct HF as [_ HF]. rewrite Forall_forall in HF. specialize (HF (0, 0)).
    assert (h < 0); [|lia]. apply HF. apply Hmem. simpl. lia.
Qed.

Lemma static_owner_unique n h i j : 0 < n < 2 ^ 63 -> static_owner n h i -> static_owner n h j -> i = j.
Proof.
  intros Hn (Hi & Hi1 & Hi2) (Hj & Hj1 & Hj2).
  assert (Hx : 0 < max_uint64 / n). { apply Z.div_str_pos. assert (max_uint64 = 2^64-1) by reflexivity. lia. }
  destruct (Z.lt_trichotomy i j) as [H|[H|H]]; [|done|]; exfalso.
  - assert ((i + 1) * (max_uint64 / n) <= j * (max_uint64 / n)) by (apply Z.mul_le_mono_nonneg_r; lia). lia.
  - assert ((j + 1) * (max_uint64 / n) <= i * (max_uint64 / n)) by (apply Z.mul_le_mono_nonneg_r; lia). lia.
Qed.

Lemma static_owner_mono n h h' i j :
  0 < n < 2 ^ 63 -> h <= h' -> static_owner n h i -> static_owner n h' j -> i <= j.
Proof.
  intros Hn Hh (Hi & Hi1 & Hi2) (Hj & Hj1 & Hj2).
  assert (Hx : 0 < max_uint64 / n). { apply Z.div_str_pos. assert (max_uint64 = 2^64-1) by reflexivity. lia. }
  destruct (decide (i <= j)); [done|exfalso].
  assert ((j + 1) * (max_uint64 / n) <= i * (max_uint64 / n)) by (apply Z.mul_le_mono_nonneg_r; lia). lia.
Qed.
