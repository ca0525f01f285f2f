(** What the nodes of a running cluster say about their sources. *)
From stdpp Require Import prelude gmap strings list.
From Verif.Base Require Import GoInt Envelope.
From Verif.Store Require Import GoHeap Avl Model Spec AvlProofs ProofsBase ProofsHist ProofsAcct ProofsGet.
From Verif.Routing Require Import Model Spec.
From Verif.Whole Require Import Model Spec SpecFull SpecMeta Proofs ProofsFull.
Open Scope Z_scope.

(** ** Pruning *)
Lemma prune_loop_shrunk n : ∀ h s s' h', inv s -> prune_loop n h s = Some (s', h') -> ∀ src, shrunk s s' src.
Proof.
  induction n as [|n IH]; intros h s s' h' Hi E src0; cbn [prune_loop] in E.
  { injection E as -> ->. apply shrunk_refl. }
  destruct (heap_pop fst h) as [[[k src] h1]|]; [|done]. cbn [mbind option_bind] in E.
  destruct (remove_oldest src s) as [[s1 nx]|] eqn:Er; [|done]. cbn [mbind option_bind] in E.
  destruct (st_index s !! src) as [sg|] eqn:Es; [|by unfold remove_oldest in Er; rewrite Es in Er].
  destruct (inv_head s Hi _ _ Es) as (e0 & l0 & He).
  assert (Hi1 : inv s1) by (eapply inv_remove; eauto).
  assert (H1 : shrunk s s1 src0).
  { pose proof (remove_oldest_spec src s sg _ _ _ (inv_tree s Hi _ _ Es) Es He) as Hr.
    destruct l0 as [|[k' e'] l'].
    - rewrite Er in Hr. injection Hr as -> ->. unfold shrunk. simpl. destruct (decide (src0 = src)) as [->|].
      + by rewrite lookup_delete.
      + rewrite lookup_delete_ne by done. apply shrunk_refl.
    - destruct Hr as (t' & _ & Ht & Hr). rewrite Er in Hr. injection Hr as -> ->. unfold shrunk. simpl.
      destruct (decide (src0 = src)) as [->|].
      + rewrite lookup_insert. exists sg, [(m_oldest (sg_meta sg), e0)]. split; [done|]. cbn [sg_meta sg_tree ent].
        split; [rewrite He; unfold ent; cbn [sg_tree]; by rewrite Ht|]. by split.
      + rewrite lookup_insert_ne by done. apply shrunk_refl. }
  assert (∃ h2, prune_loop n h2 s1 = Some (s', h')) as [h2 E'] by (destruct nx; eauto).
  eapply shrunk_trans; [exact H1|]. by eapply IH.
Qed.
Lemma truncate_shrunk q pri now s s' : inv s -> truncate q pri now s = Some s' -> ∀ src, shrunk s s' src.
Proof.
  intros Hi. unfold truncate. destruct (q =? 0); [intros [= ->] src; apply shrunk_refl|].
  destruct (build_heap _ _) as [h|]; [|done]. cbn [mbind option_bind].
  destruct (prune_loop _ h s) as [[s1 h1]|] eqn:E; [|done]. cbn [mbind option_bind].
  pose proof (prune_loop_shrunk _ _ _ _ _ Hi E) as Hsub.
  destruct h1 as [|x h1].
  - intros [= <-]. done.
  - destruct (raw_pop (x :: h1)) as [[[ts src] h']|]; [|done]. cbn [mbind option_bind].
    intros [= <-]. done.
Qed.

(** ** The numbers of a source *)
Definition mok (s : store) (src : string) (A : list envelope) (np : Prop) : Prop :=
  match st_index s !! src with
  | None => np -> A = []
  | Some sg => Z.of_nat (length (ent sg)) + m_expired (sg_meta sg) <= Z.of_nat (length A) ∧
      m_newest (sg_meta sg) <= newest_of A ∧ Forall (fun x => e_ts x.2 <= m_newest (sg_meta sg)) (ent sg) ∧
      (np -> m_newest (sg_meta sg) = newest_of A ∧ Z.of_nat (length (ent sg)) + m_expired (sg_meta sg) = Z.of_nat (length A))
  end.
Lemma mok_index s s' src A np : st_index s' !! src = st_index s !! src -> mok s src A np -> mok s' src A np.
Proof. unfold mok. by intros ->. Qed.
Lemma newest_nonneg l : 0 <= newest_of l.
Proof. unfold newest_of. induction l; cbn; lia. Qed.
Lemma keep_length m l e : 1 <= m -> Z.of_nat (length (keep m l e)) = Z.of_nat (length l) + (if m <=? Z.of_nat (length l) then 0 else 1).
Proof.
  intros Hm. unfold keep. rewrite by_time_perm. cbn [length]. destruct (Z.leb_spec m (Z.of_nat (length l))); [|lia].
  destruct l; cbn in *; lia.
Qed.
Lemma keyed_length l : length (keyed l) = length l.
Proof. unfold keyed. by rewrite fmap_length. Qed.

Lemma put_mok e src now s s' l A np :
  inv s -> in64 (e_ts e) -> e_ts e ∉ e_ts <$> l -> entries s src = keyed l -> put_env e src now s = Some s' ->
  mok s src A np -> mok s' src (A ++ [e]) np.
Proof.
  intros Hi H64 Hn Hl Hp Hm. destruct (put_keyed e src now s s' l Hi H64 Hn Hl Hp) as (He' & _ & _).
  destruct (put_env_spec e src now s (inv_max s Hi) (inv_tree s Hi src)) as (f & sg' & _ & _ & _ & _ & _ & Hexp & Hnew & _ & E).
  rewrite E in Hp. injection Hp as <-. unfold mok. cbn [st_index]. rewrite lookup_insert.
  unfold entries in He'. cbn [st_index] in He'. rewrite lookup_insert in He'. fold (ent sg') in He'. rewrite He'.
  rewrite keyed_length, keep_length by apply (inv_max s Hi).
  rewrite Hexp, Hnew, Hl, keyed_length, app_length, newest_of_snoc. cbn [length].
  assert (Hb : Z.of_nat (length l) + m_expired (meta_of s src) <= Z.of_nat (length A) ∧ m_newest (meta_of s src) <= newest_of A ∧
    Forall (fun x => e_ts x <= m_newest (meta_of s src)) l ∧
    (np -> m_newest (meta_of s src) = newest_of A ∧ Z.of_nat (length l) + m_expired (meta_of s src) = Z.of_nat (length A))).
  { unfold mok in Hm. unfold entries, meta_of in *. destruct (st_index s !! src) as [sg|].
    - fold (ent sg) in Hl. rewrite Hl, keyed_length in Hm. destruct Hm as (H1 & H2 & H3 & H4). split; [done|]. split; [done|].
      split; [|done]. unfold keyed in H3. by rewrite Forall_fmap in H3.
    - destruct l as [|x l]; [|done]. cbn. pose proof (newest_nonneg A). split; [lia|]. split; [done|]. split; [constructor|].
      intros Hnp. by rewrite (Hm Hnp). }
  destruct Hb as (H1 & H2 & H3 & H4). split; [destruct (Z.leb_spec (st_max s) (Z.of_nat (length l))); lia|]. split; [lia|]. split.
  - unfold keyed. apply Forall_fmap. cbn. pose proof (keep_sub (st_max s) l e) as Hks.
    apply Forall_forall. intros x Hx. cbn. eapply elem_of_submseteq in Hx; [|exact Hks]. apply elem_of_app in Hx as [Hx|Hx].
    + rewrite Forall_forall in H3. specialize (H3 x Hx). lia.
    + apply elem_of_list_singleton in Hx as ->. lia.
  - intros Hnp. destruct (H4 Hnp) as [-> H5]. split; [done|]. destruct (Z.leb_spec (st_max s) (Z.of_nat (length l))); lia.
Qed.
Lemma put_index_ne e src now s s' x : x ≠ src -> inv s -> put_env e src now s = Some s' -> st_index s' !! x = st_index s !! x.
Proof.
  intros Hne Hi Hp.
  destruct (put_env_spec e src now s (inv_max s Hi) (inv_tree s Hi src)) as (f & sg' & _ & _ & _ & _ & _ & _ & _ & _ & E).
  rewrite E in Hp. injection Hp as <-. cbn [st_index]. by rewrite lookup_insert_ne.
Qed.
Lemma put_all_mok now src es np : ∀ s s' l A,
  inv s -> l ⊆+ A -> distinct_times (A ++ of_source src es) -> entries s src = keyed l -> put_all now es s = Some s' ->
  mok s src A np -> mok s' src (A ++ of_source src es) np.
Proof.
  induction es as [|e es IH]; intros s s' l A Hi Hsub [H64 Hnd] Hl Hp Hm; cbn [put_all] in Hp.
  { injection Hp as <-. cbn. by rewrite app_nil_r. }
  destruct (put_env e (e_source e) now s) as [s1|] eqn:E1; [|done]. cbn [mbind option_bind] in Hp.
  destruct (step_inv s (OPut e (e_source e) now) s1 Hi E1) as [Hi1 Hm1].
  unfold of_source in *. rewrite filter_cons in *. destruct (decide (e_source e = src)) as [<-|Hne].
  - assert (He : in64 (e_ts e)). { apply Forall_app in H64 as [_ H]. by apply Forall_cons in H as [? _]. }
    assert (Hn : e_ts e ∉ e_ts <$> l).
    { intros Hin. rewrite fmap_app in Hnd. apply NoDup_app in Hnd as (_ & Hnd & _). apply (Hnd (e_ts e)); [|by left].
      eapply elem_of_submseteq; [exact Hin|]. by apply fmap_submseteq. }
    destruct (put_keyed e (e_source e) now s s1 l Hi He Hn Hl E1) as (H1 & _ & _).
    replace (A ++ e :: filter (λ e0, e_source e0 = e_source e) es) with ((A ++ [e]) ++ filter (λ e0, e_source e0 = e_source e) es)
      by (by rewrite <-app_assoc).
    apply (IH s1 s' (keep (st_max s) l e) (A ++ [e])); try done.
    { etransitivity; [apply keep_sub|]. by apply submseteq_app. }
    { split; rewrite <-app_assoc; done. }
    exact (put_mok e (e_source e) now s s1 l A np Hi He Hn Hl E1 Hm).
  - apply (IH s1 s' l A); try done.
    { rewrite <-Hl. eapply put_entries_ne; [|exact Hi|exact E1]. done. }
    eapply mok_index; [|exact Hm]. eapply put_index_ne; [|exact Hi|exact E1]. done.
Qed.

(** ** Nodes *)
Definition unpruned (k : nat) (tr : list event) : Prop := ∀ n pri, VPrune k n pri ∉ life k tr.
Definition node_mok k src tr (nd : node) : Prop :=
  distinct_times (arrived k src (life k tr)) -> mok (n_store nd) src (arrived k src (life k tr)) (unpruned k tr).
Lemma mok_impl s src A (P Q : Prop) : (Q -> P) -> mok s src A P -> mok s src A Q.
Proof. unfold mok. destruct (st_index s !! src); naive_solver. Qed.

Lemma mok_other k src tr ev nd nd' :
  match ev with VArrive j _ | VPrune j _ _ | VRestart j _ => j ≠ k | _ => True end ->
  st_index (n_store nd') !! src = st_index (n_store nd) !! src ->
  node_mok k src tr nd -> node_mok k src (tr ++ [ev]) nd'.
Proof.
  intros Hev He H. unfold node_mok, unpruned. assert (Hlife : life k (tr ++ [ev]) = life k tr ++ [ev]).
  { rewrite life_snoc. destruct ev; try done. by rewrite decide_False. }
  assert (Ha : arrives k src ev = []). { destruct ev; try done. cbn. by rewrite decide_False. }
  rewrite Hlife, arrived_snoc, Ha, app_nil_r. intros D. eapply mok_index; [exact He|]. eapply mok_impl; [|by apply H].
  intros Hnp n pri Hin. apply (Hnp n pri). apply elem_of_app. by left.
Qed.

Lemma mok_step hash compile ms src tr c ev c' k :
  step hash compile c ev c' -> (∀ nd, c_nodes c !! k = Some nd -> node_ok ms k src tr nd) ->
  (∀ nd, c_nodes c !! k = Some nd -> node_mok k src tr nd) ->
  ∀ nd', c_nodes c' !! k = Some nd' -> node_mok k src (tr ++ [ev]) nd'.
Proof.
  intros Hs Hok IH nd' Hk.
  destruct Hs as [i r calls nd ns fl Hi Hc|j es now nd s ns fl fl' Hj Hp Hput|j e' ns fl fl' Hp|i t nd ns fl Hi|i n pri now nd s ns fl Hi Ht
                 |i m nd ns fl Hi Hm|k' rq now nd ns fl Hi]; cbn [c_nodes] in *.
  - by eapply mok_other; [done..|apply IH].
  - apply insert_cases in Hk as [(-> & <- & Hlt)|[Hne Hk]].
    + destruct (Hok _ Hj) as (Hiv & Hb & H). specialize (IH _ Hj). unfold node_mok, unpruned. cbn [n_store].
      rewrite life_snoc, arrived_snoc. cbn [arrives]. rewrite decide_True by done. intros D.
      destruct (H (distinct_app _ _ D)) as (l & Hl & E & Hsub).
      eapply (put_all_mok now src es _ (n_store nd) s l); try done.
      eapply mok_impl; [|apply IH; by eapply distinct_app]. intros Hnp n pri Hin. apply (Hnp n pri). apply elem_of_app. by left.
    + eapply mok_other; [|done|by apply IH]. destruct Hne as [?|Hge]; [done|]. apply lookup_lt_Some in Hj. lia.
  - by eapply mok_other; [done..|apply IH].
  - apply insert_cases in Hk as [(-> & <- & Hlt)|[Hne Hk]].
    + by apply (mok_other _ _ _ _ nd); try apply IH.
    + by apply (mok_other _ _ _ _ nd'); try apply IH.
  - apply insert_cases in Hk as [(-> & <- & Hlt)|[Hne Hk]].
    + destruct (Hok _ Hi) as (Hiv & Hb & H). specialize (IH _ Hi). unfold node_mok, unpruned. cbn [n_store].
      rewrite life_snoc, arrived_snoc. cbn [arrives]. rewrite app_nil_r. intros D. specialize (IH D).
      assert (Hnp : (∀ n0 pri0, VPrune k n0 pri0 ∉ life k tr ++ [VPrune k n pri]) -> False).
      { intros Hnp. apply (Hnp n pri). apply elem_of_app. right. by left. }
      pose proof (truncate_shrunk _ _ _ _ _ Hiv Ht src) as Hsh. unfold shrunk in Hsh. unfold mok in *.
      destruct (st_index s !! src) as [sg'|]; [|by intros ?%Hnp].
      destruct Hsh as (sg & r & Es & Hr & Hx & Hnw). rewrite Es in IH. destruct IH as (H1 & H2 & H3 & _).
      rewrite Hr, app_length in H1. rewrite Hr in H3. apply Forall_app in H3 as [_ H3]. rewrite Hx, Hnw.
      split; [lia|]. split; [done|]. split; [done|]. by intros ?%Hnp.
    + eapply mok_other; [|done|by apply IH]. destruct Hne as [?|Hge]; [done|]. apply lookup_lt_Some in Hi. lia.
  - apply insert_cases in Hk as [(-> & <- & Hlt)|[Hne Hk]].
    + unfold node_mok, mok. cbn [n_store]. intros _. cbn. rewrite lookup_empty. intros _. by rewrite life_snoc, decide_True.
    + eapply mok_other; [|done|by apply IH]. destruct Hne as [?|Hge]; [done|]. apply lookup_lt_Some in Hi. lia.
  - apply insert_cases in Hk as [(-> & <- & Hlt)|[Hne Hk]].
    + eapply mok_other; [done| |by apply IH]. cbn [n_store]. by destruct (local_read _ _ _ _).
    + by eapply mok_other; [done..|apply IH].
Qed.

Lemma mok_runs hash compile ms src tr c k :
  Forall (fun m => 1 <= m) ms -> runs hash compile (start ms) tr c ->
  ∀ nd, c_nodes c !! k = Some nd -> node_mok k src tr nd.
Proof.
  intros Hms Hr. induction Hr as [|tr c1 ev c2 Hr IH Hs].
  - intros nd Hk. cbn in Hk. apply list_lookup_fmap_inv in Hk as (m & -> & Hm). unfold node_mok, mok. cbn. by rewrite lookup_empty.
  - eapply mok_step; [exact Hs| |exact IH]. by apply (node_runs hash compile).
Qed.

Lemma node_meta hash compile ms src tr c k nd :
  Forall (fun m => 1 <= m) ms -> runs hash compile (start ms) tr c -> c_nodes c !! k = Some nd ->
  distinct_times (arrived k src (life k tr)) ->
  match meta (n_store nd) !! src with
  | None => holds ms k src tr []
  | Some mi => describes ms k src tr mi
  end.
Proof.
  intros Hms Hr Hk D. destruct (node_runs _ _ ms src _ _ _ Hms Hr nd Hk) as (Hi & _ & H). destruct (H D) as (l & Hl & E & Hsub).
  pose proof (mok_runs _ _ ms src _ _ _ Hms Hr nd Hk D) as Hm. unfold mok in Hm. unfold meta. rewrite lookup_fmap. unfold entries in E.
  destruct (st_index (n_store nd) !! src) as [sg|] eqn:Es; cbn [fmap option_fmap option_map].
  - exists l. split; [done|]. fold (ent sg) in E. cbn [m_count m_oldest m_newest m_expired].
    destruct (inv_tree _ Hi _ _ Es) as (_ & _ & Hsz). rewrite Hsz. fold (ent sg). destruct Hm as (H1 & H2 & H3 & H4).
    rewrite E in *. rewrite keyed_length in *. split; [done|]. split.
    { destruct (inv_head _ Hi _ _ Es) as (e & l' & He). rewrite E in He. destruct l as [|x l]; [done|].
      unfold keyed in He. rewrite fmap_cons in He. injection He as Hx _ _. exists x, l. by split. }
    split; [unfold keyed in H3; by rewrite Forall_fmap in H3|]. split; [done|]. split; [done|]. intros Hnp. by apply H4.
  - by destruct l.
Qed.

Lemma last_answer_from answers src mi : last_answer answers src = Some mi -> ∃ k a, answers !! k = Some (Some a) ∧ a !! src = Some mi.
Proof.
  induction answers as [|a l IH]; [done|]. cbn [last_answer]. destruct (last_answer l src) as [v|].
  - intros [= ->]. destruct (IH eq_refl) as (k & a' & H1 & H2). by exists (S k), a'.
  - destruct a as [m|]; [|done]. intros H. by exists 0%nat, m.
Qed.
