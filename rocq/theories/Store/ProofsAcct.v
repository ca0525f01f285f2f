(** Truncation as a whole, accounting over histories, absence of panics. *)
From stdpp Require Import prelude gmap strings.
From Coq Require Import ZifyBool ZifyNat.
From Verif.Base Require Import GoInt Envelope.
From Verif.Store Require Import Avl AvlProofs GoHeap GoHeapProofs Model Spec ProofsBase ProofsHist.
Open Scope Z_scope.

Lemma truncate_spec q pri now s :
  inv s -> 0 <= st_count s < 2^63 -> st_count s <= Z.of_nat (length (all_stored s)) ->
  ∃ s' removed, truncate q pri now s = Some s' ∧ inv s' ∧
    all_stored s ≡ₚ removed ++ all_stored s' ∧
    Z.of_nat (length removed) = Z.max 0 (Z.min q (st_count s)) ∧
    (∀ x y, x ∈ removed -> y ∈ all_stored s' -> x.2.1 <= y.2.1) ∧
    st_count s' = st_count s - Z.of_nat (length removed) ∧
    st_size s' = (if q =? 0 then st_size s else st_count s') ∧
    st_expired s' = st_expired s + Z.of_nat (length removed) ∧
    same_conf s s' ∧ (∀ src, shrunk s s' src) ∧
    (q ≠ 0 -> all_stored s' ≠ [] ->
       ∃ src sg, st_index s' !! src = Some sg ∧ st_oldest s' = m_oldest (sg_meta sg)).
Proof.
  intros Hi Hc Hle. unfold truncate. destruct (Z.eqb_spec q 0) as [->|Hq].
  { exists s, []. split; [done|]. split; [done|]. split; [done|]. simpl.
    split; [lia|]. split; [intros x y Hx; by inversion Hx|]. do 2 (split; [done||lia|]).
    split; [lia|]. split; [done|]. split; [apply shrunk_refl|done]. }
  assert (Hq' : (if st_count s <? q then st_count s else q) = Z.min q (st_count s)).
  { destruct (Z.ltb_spec (st_count s) q); lia. }
  rewrite Hq'. clear Hq'.
  destruct (build_heap_spec (range_order pri (st_index s)) []) as (h & -> & Hp & Hok).
  { intros [src sg]. rewrite range_order_perm, elem_of_map_to_list. intros Hl.
    destruct (inv_head s Hi _ _ Hl) as (e & l & He). simpl. by rewrite He. }
  { intros i. simpl. lia. }
  cbn [mbind option_bind]. rewrite app_nil_r, range_order_perm in Hp. fold (heads (st_index s)) in Hp.
  destruct (prune_loop_spec (Z.to_nat (Z.min q (st_count s))) h s Hi Hp Hok)
    as (s1 & h1 & removed & -> & Hi1 & Hp1 & Hok1 & Hall & Hlen & Hord & Hc1 & Hc0 & Hx & Hconf & Hshr); [lia|].
  cbn [mbind option_bind].
  assert (Hcount : st_count s1 = st_count s - Z.of_nat (length removed)).
  { destruct (decide (Z.to_nat (Z.min q (st_count s)) = 0%nat)) as [E|E].
    - rewrite Hc0 by done. lia.
    - rewrite Hc1 by done. rewrite wrap64_id; unfold in64; lia. }
  destruct h1 as [|x h1].
  - eexists _, removed. split; [reflexivity|]. cbn.
    split. { destruct Hi1. split; auto. }
    split; [done|]. split; [lia|]. split; [done|]. split; [done|]. split; [done|]. split; [lia|].
    split; [done|]. split; [done|]. intros _ Hne. exfalso.
    change (all_of (st_index s1) ≠ []) in Hne.
    destruct (all_of (st_index s1)) as [|[src p] L] eqn:E; [done|].
    assert (Hin : (src, p) ∈ all_of (st_index s1)) by (rewrite E; by left).
    apply elem_of_all_of in Hin as (sg & Hl & _).
    destruct (inv_head s1 Hi1 _ _ Hl) as (e & l & He).
    assert (Hh : (m_oldest (sg_meta sg), src) ∈ heads (st_index s1)) by (apply elem_of_heads; eauto).
    rewrite <-Hp1 in Hh. by inversion Hh.
  - unfold raw_pop. destruct (last (x :: h1)) as [[ts src]|] eqn:El; [|by apply last_None in El].
    cbn [mbind option_bind].
    eexists _, removed. split; [reflexivity|]. cbn.
    split. { destruct Hi1. split; auto. }
    split; [done|]. split; [lia|]. split; [done|]. split; [done|]. split; [done|]. split; [lia|].
    split; [done|]. split; [done|]. intros _ _.
    assert (Hin : (ts, src) ∈ heads (st_index s1)).
    { rewrite <-Hp1. apply last_Some_elem_of in El. done. }
    apply elem_of_heads in Hin as (sg & e & l & Hl & He). exists src, sg. split; [done|].
    destruct (inv_head s1 Hi1 _ _ Hl) as (e' & l' & He'). congruence.
Qed.

(** ** Reads *)
Lemma check_type_known e t : (∀ n, t ≠ T_UNKNOWN n) -> ∃ b, check_type e t = Some b.
Proof. destruct t; simpl; eauto. intros H. by destruct (H n). Qed.

Lemma valid_type_known e types : known_types types -> ∃ b, valid_type e types = Some b.
Proof.
  destruct types as [ts|]; simpl; [|eauto]. intros Hf. induction Hf as [|t ts Ht Hf IH]; simpl; [eauto|].
  destruct (check_type_known e t Ht) as [b ->]. simpl. destruct b; eauto.
Qed.

Lemma visit_known types nf limit res e :
  known_types types -> ∃ r, visit types nf limit res e = Some r.
Proof.
  intros Hk. unfold visit. destruct (filter_by_name nf e) as [e'|]; [|eauto].
  destruct (valid_type_known e' types Hk) as [b ->]. simpl. eauto.
Qed.

Lemma tree_asc_total st en f t : (∀ res e, ∃ r, f res e = Some r) -> ∀ res, ∃ r, tree_asc st en f t res = Some r.
Proof.
  intros Hf. induction t as [|b k e l IHl r IHr]; intros res; simpl; [eauto|].
  destruct (_ <=? _); [|done]. destruct (IHl res) as [[res1 b1] ->]. simpl. destruct b1; [eauto|].
  destruct (_ <=? _); simpl.
  - destruct (negb _); eauto.
  - destruct (Hf res1 e) as [[res2 b2] ->]. simpl. destruct (b2 && _); eauto.
Qed.

Lemma tree_desc_total st en f t : (∀ res e, ∃ r, f res e = Some r) -> ∀ res, ∃ r, tree_desc st en f t res = Some r.
Proof.
  intros Hf. induction t as [|b k e l IHl r IHr]; intros res; simpl; [eauto|].
  destruct (_ <? _); [|done]. destruct (IHr res) as [[res1 b1] ->]. simpl. destruct b1; [eauto|].
  destruct (_ <? _); simpl.
  - destruct (negb _); eauto.
  - destruct (Hf res1 e) as [[res2 b2] ->]. simpl. destruct (b2 && _); eauto.
Qed.

Lemma get_env_known src q s : known_types (q_types q) -> ∃ res, get_env src q s = Some res.
Proof.
  intros Hk. unfold get_env. destruct (st_index s !! src); [|eauto].
  pose proof (fun res e => visit_known (q_types q) (q_name q) (q_limit q) res e Hk) as Hv.
  destruct (q_desc q).
  - destruct (tree_desc_total (q_start q) (q_end q) _ (av_root (sg_tree s0)) Hv []) as [[r b] ->]. simpl. eauto.
  - destruct (tree_asc_total (q_start q) (q_end q) _ (av_root (sg_tree s0)) Hv []) as [[r b] ->]. simpl. eauto.
Qed.

(** ** Accounting *)
Record acct (s : store) : Prop := {
  ac_count : st_count s = Z.of_nat (length (all_stored s));
  ac_size : st_size s = st_count s;
  ac_cons : st_ingress s = Z.of_nat (length (all_stored s)) + st_expired s;
  ac_exp : 0 <= st_expired s;
  ac_fudge : st_fudge s = 4000
}.

Lemma acct_new m : acct (new_store m).
Proof. split; simpl; try done; try lia. Qed.

Lemma put_acct e src now s s' :
  inv s -> acct s -> room s src e -> st_ingress s + 1 < 2^63 ->
  put_env e src now s = Some s' -> acct s' ∧ st_ingress s' = st_ingress s + 1.
Proof.
  intros Hi Ha (f0 & Hf0 & Hroom) Hb Hput.
  destruct (put_env_spec e src now s (inv_max s Hi) (inv_tree s Hi src))
    as (f & sg' & Hf & Hocc & Hfree & Hok & Hent & _ & _ & Hhd & E).
  rewrite E in Hput. injection Hput as <-. simpl. split; [|done].
  destruct Ha as [Hc Hsz Hcons Hexp Hfud].
  assert (Hfresh : wrap64 (e_ts e + f) ∉ (base_of (st_max s) (entries s src)).*1).
  { rewrite Hfud in *. apply Hfree. destruct (decide (f < Z.max 0 4000)); [done|].
    exfalso. apply Hroom. unfold kept_on_put. apply Hocc. lia. }
  assert (Hlen : length (all_of (<[src:=sg']> (st_index s))) =
                 (if (st_max s <=? Z.of_nat (length (entries s src))) then length (all_stored s) else S (length (all_stored s)))).
  { pose proof (Permutation_length (all_of_insert' (st_index s) src sg')) as ->.
    pose proof (Permutation_length (all_of_entries s src)) as ->.
    rewrite !app_length, !fmap_length, Hent.
    rewrite linsert_length by (apply base_of_sorted, inv_sorted; done).
    apply has_key_false in Hfresh. rewrite Hfresh.
    unfold base_of. change (stored s src) with (entries s src).
    destruct (Z.leb_spec (st_max s) (Z.of_nat (length (entries s src)))) as [Hfull|]; [|lia].
    pose proof (inv_max s Hi). destruct (entries s src); simpl in *; lia. }
  split; simpl; try done;
    try match goal with |- context [all_stored ?x] =>
      change (all_stored x) with (all_of (<[src:=sg']> (st_index s))); rewrite Hlen end;
    destruct (Z.leb_spec (st_max s) (Z.of_nat (length (entries s src)))); try lia.
  rewrite wrap64_id; unfold in64; lia.
Qed.

Lemma truncate_acct q pri now s :
  inv s -> acct s -> st_ingress s < 2^63 ->
  ∃ s', truncate q pri now s = Some s' ∧ inv s' ∧ acct s' ∧ st_ingress s' = st_ingress s.
Proof.
  intros Hi [Hc Hsz Hcons Hexp Hfud] Hb.
  destruct (truncate_spec q pri now s Hi) as (s' & removed & E & Hi' & Hall & Hlen & _ & Hc' & Hsz' & Hx' & Hconf & _).
  { lia. } { lia. }
  exists s'. split; [done|]. split; [done|].
  apply Permutation_length in Hall. rewrite app_length in Hall.
  destruct Hconf as (_ & Hfu & Hin & _). split; [|done].
  split; try lia. rewrite Hsz'. destruct (Z.eqb_spec q 0) as [->|]; [|done]. lia.
Qed.


Lemma step_acct s o :
  inv s -> acct s -> op_ok o -> match o with OPut e src _ => room s src e | _ => True end ->
  st_ingress s + 1 < 2^63 ->
  ∃ s', step s o = Some s' ∧ inv s' ∧ acct s' ∧ st_ingress s <= st_ingress s' <= st_ingress s + 1.
Proof.
  intros Hi Ha Hop Hroom Hb. destruct o as [e src now|q pri now|src q|]; simpl in *.
  - destruct (put_inv e src now s Hi) as (s' & E & Hi'). exists s'. split; [done|]. split; [done|].
    destruct (put_acct e src now s s' Hi Ha Hroom Hb E). split; [done|lia].
  - destruct (truncate_acct q pri now s Hi Ha) as (s' & E & Hi' & Ha' & Hin); [lia|].
    exists s'. repeat (split; [done|]). lia.
  - destruct (get_env_known src q s Hop) as (res & ->). simpl. eexists. split; [done|].
    destruct Hi, Ha. split; [split; done|]. split; [split; done|]. simpl. lia.
  - eexists. split; [done|]. repeat (split; [done|]). lia.
Qed.

Lemma run_acct ops : ∀ s,
  inv s -> acct s -> Forall op_ok ops -> roomy s ops ->
  st_ingress s + Z.of_nat (length ops) < 2^63 ->
  ∃ s', run s ops = Some s' ∧ inv s' ∧ acct s' ∧ st_ingress s' <= st_ingress s + Z.of_nat (length ops).
Proof.
  induction ops as [|o ops IH]; intros s Hi Ha Hop Hr Hb; simpl.
  { exists s. repeat (split; [done|]). lia. }
  inversion Hop as [|? ? Ho Hops]; subst. destruct Hr as [Hroom Hr]. simpl in Hb.
  destruct (step_acct s o Hi Ha Ho Hroom) as (s1 & E & Hi1 & Ha1 & Hin); [lia|].
  rewrite E. simpl. destruct (IH s1 Hi1 Ha1 Hops (Hr s1 E)) as (s' & E' & Hi' & Ha' & Hin'); [lia|].
  exists s'. repeat (split; [done|]). lia.
Qed.

(** ** The structural invariant needs no accounting *)
Lemma inv_ext s s' : st_index s' = st_index s -> st_max s' = st_max s -> inv s -> inv s'.
Proof. intros E1 E2 [H1 H2 H3 H4]. split; rewrite ?E1, ?E2; auto. Qed.

Lemma prune_loop_inv n : ∀ h s s' h', inv s -> prune_loop n h s = Some (s', h') -> inv s' ∧ st_max s' = st_max s.
Proof.
  induction n as [|n IH]; intros h s s' h' Hi E; cbn [prune_loop] in E.
  { injection E as -> ->. done. }
  destruct (heap_pop fst h) as [[[k src] h1]|]; [|done]. cbn [mbind option_bind] in E.
  destruct (remove_oldest src s) as [[s1 nx]|] eqn:Er; [|done]. cbn [mbind option_bind] in E.
  assert (Hs1 : inv s1 ∧ st_max s1 = st_max s).
  { unfold remove_oldest in Er. destruct (st_index s !! src) as [sg|] eqn:Es; [|done].
    destruct (inv_head s Hi _ _ Es) as (e0 & l0 & He).
    split.
    - eapply inv_remove; [exact Hi|exact Es|exact He|]. unfold remove_oldest. rewrite Es. exact Er.
    - pose proof (remove_oldest_spec src s sg _ _ _ (inv_tree s Hi _ _ Es) Es He) as Hr.
      unfold remove_oldest in Hr. rewrite Es in Hr.
      destruct l0 as [|[k' e'] l'].
      + rewrite Er in Hr. by injection Hr as -> ->.
      + destruct Hr as (t' & _ & _ & Hr). rewrite Er in Hr. by injection Hr as -> ->. }
  destruct Hs1 as [Hi1 Hm1].
  assert (∃ h2, prune_loop n h2 s1 = Some (s', h')) as [h2 E'] by (destruct nx; eauto).
  destruct (IH _ _ _ _ Hi1 E') as [? ?]. split; [done|congruence].
Qed.

Lemma truncate_inv q pri now s s' : inv s -> truncate q pri now s = Some s' -> inv s' ∧ st_max s' = st_max s.
Proof.
  intros Hi. unfold truncate. destruct (q =? 0); [by intros [= ->]|].
  destruct (build_heap _ _) as [h|]; [|done]. cbn [mbind option_bind].
  destruct (prune_loop _ h s) as [[s1 h1]|] eqn:E; [|done]. cbn [mbind option_bind].
  apply prune_loop_inv in E as [Hi1 Hm1]; [|done].
  destruct h1 as [|x h1].
  - intros [= <-]. split; [by apply (inv_ext s1)|done].
  - destruct (raw_pop (x :: h1)) as [[[ts src] h']|]; [|done]. cbn [mbind option_bind].
    intros [= <-]. split; [by apply (inv_ext s1)|done].
Qed.

Lemma step_inv s o s' : inv s -> step s o = Some s' -> inv s' ∧ st_max s' = st_max s.
Proof.
  intros Hi. destruct o as [e src now|q pri now|src q|]; simpl.
  - intros E. destruct (put_inv e src now s Hi) as (s'' & E' & Hi').
    rewrite E in E'. injection E' as <-. split; [done|].
    destruct (put_env_spec e src now s (inv_max s Hi) (inv_tree s Hi src))
      as (f & sg' & _ & _ & _ & _ & _ & _ & _ & _ & E2). rewrite E in E2. by injection E2 as ->.
  - apply truncate_inv. done.
  - destruct (get_env src q s); [|done]. simpl. intros [= <-]. split; [by apply (inv_ext s)|done].
  - by intros [= <-].
Qed.

Lemma run_inv ops : ∀ s s', inv s -> run s ops = Some s' -> inv s' ∧ st_max s' = st_max s.
Proof.
  induction ops as [|o ops IH]; intros s s' Hi; simpl; [by intros [= <-]|].
  destruct (step s o) as [s1|] eqn:E; [|done]. simpl. intros E'.
  destruct (step_inv s o s1 Hi E) as [Hi1 Hm1]. destruct (IH s1 s' Hi1 E'). split; [done|congruence].
Qed.

(** ** Meta *)
Lemma newest_of_snoc l e : newest_of (l ++ [e]) = Z.max (newest_of l) (e_ts e).
Proof. unfold newest_of. rewrite foldr_app. simpl. induction l; simpl; lia. Qed.

Definition meta_ok (s : store) (g : string -> list envelope) : Prop :=
  ∀ src, match st_index s !! src with
         | None => g src = []
         | Some sg => Z.of_nat (length (ent sg)) + m_expired (sg_meta sg) = Z.of_nat (length (g src)) ∧
                      m_newest (sg_meta sg) = newest_of (g src)
         end.

Lemma step_meta s o s' g :
  inv s -> acct s -> match o with OPut e src _ => room s src e | _ => True end ->
  st_ingress s + 1 < 2^63 ->
  meta_ok s g -> step s o = Some s' -> meta_ok s' (written_step s' o g).
Proof.
  intros Hi Ha Hroom Hb Hm Hs. destruct o as [e src now|q pri now|src q|]; simpl in *.
  - destruct Hroom as (f0 & Hf0 & Hroom).
    destruct (put_env_spec e src now s (inv_max s Hi) (inv_tree s Hi src))
      as (f & sg' & Hf & Hocc & Hfree & Hok & Hent & Hexp & Hnew & Hhd & E).
    rewrite E in Hs. injection Hs as <-. intros x. simpl.
    destruct (decide (x = src)) as [->|].
    + rewrite lookup_insert. rewrite app_length. simpl. rewrite newest_of_snoc.
      assert (Hfresh : wrap64 (e_ts e + f) ∉ (base_of (st_max s) (entries s src)).*1).
      { rewrite (ac_fudge s Ha) in *. apply Hfree. destruct (decide (f < Z.max 0 4000)); [done|].
        exfalso. apply Hroom. unfold kept_on_put. apply Hocc. lia. }
      assert (Hg : Z.of_nat (length (entries s src)) + m_expired (meta_of s src) = Z.of_nat (length (g src)) ∧
                   m_newest (meta_of s src) = newest_of (g src)).
      { specialize (Hm src). unfold entries, meta_of. destruct (st_index s !! src); [done|]. rewrite Hm. done. }
      destruct Hg as [Hg1 Hg2]. split.
      * rewrite Hent, Hexp. rewrite linsert_length by (apply base_of_sorted, inv_sorted; done).
        apply has_key_false in Hfresh. rewrite Hfresh. unfold base_of.
        destruct (Z.leb_spec (st_max s) (Z.of_nat (length (entries s src)))) as [Hfull|]; [|lia].
        pose proof (inv_max s Hi). destruct (entries s src); simpl in *; lia.
      * rewrite Hnew. lia.
    + rewrite lookup_insert_ne by done. apply Hm.
  - destruct (truncate_spec q pri now s Hi)
      as (s'' & removed & E & Hi' & _ & _ & _ & _ & _ & _ & _ & Hshr & _).
    { destruct Ha; lia. } { destruct Ha; lia. }
    rewrite E in Hs. injection Hs as <-. intros x. specialize (Hshr x). unfold shrunk in Hshr.
    destruct (st_index s'' !! x) as [sg'|]; [|done].
    destruct Hshr as (sg & r & Es & Hr & Hx & Hn). specialize (Hm x). rewrite Es in Hm.
    rewrite Hr, app_length in Hm. split; [lia|]. rewrite Hn. apply Hm.
  - destruct (get_env src q s); [|done]. simpl in Hs. injection Hs as <-. done.
  - by injection Hs as <-.
Qed.

Lemma run_meta ops : ∀ s g s' g',
  inv s -> acct s -> Forall op_ok ops -> roomy s ops -> meta_ok s g ->
  st_ingress s + Z.of_nat (length ops) < 2^63 ->
  run_written s g ops = Some (s', g') -> inv s' ∧ meta_ok s' g'.
Proof.
  induction ops as [|o ops IH]; intros s g s' g' Hi Ha Hop Hr Hm Hb E; simpl in *.
  { by injection E as <- <-. }
  inversion Hop as [|? ? Ho Hops]; subst. destruct Hr as [Hroom Hr].
  destruct (step_acct s o Hi Ha Ho Hroom) as (s1 & E1 & Hi1 & Ha1 & Hin); [lia|].
  rewrite E1 in E. simpl in E.
  assert (meta_ok s1 (written_step s1 o g)) by (apply (step_meta s o s1 g); auto; lia).
  eapply (IH s1); eauto. lia.
Qed.

Lemma run_written_run ops : ∀ s g, (fst <$> run_written s g ops) = run s ops.
Proof.
  induction ops as [|o ops IH]; intros s g; simpl; [done|]. destruct (step s o); simpl; auto.
Qed.
