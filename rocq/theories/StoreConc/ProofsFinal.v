(** The concurrent-store lemmas in the form used by the property files. *)
From stdpp Require Import prelude gmap strings.
From Coq Require Import ZifyBool ZifyNat.
From Verif.Base Require Import GoInt Envelope.
From Verif.Store Require Import Avl AvlProofs GoHeap GoHeapProofs Model Spec ProofsBase ProofsHist ProofsRoom.
From Verif.Store Require ProofsAcct.
From Verif.StoreConc Require Import Model Spec ProofsLock ProofsTree ProofsLin ProofsAcct.
Open Scope Z_scope.
#[local] Opaque find_fudge avl_put avl_remove avl_left get_tree lookup insert heap_pop heap_push.

Theorem conc_capacity m ls c a sg : 1 <= m -> crun (initial m) ls = Some c -> sh_heap (cf_sh c) !! a = Some sg ->
  Z.of_nat (length (held sg)) <= m ∧ av_size (cs_tree sg) = Z.of_nat (length (held sg)).
Proof.
  intros Hm H Ha. destruct (trees_reach m ls c Hm H) as [HL HT]. destruct (tr_ok _ _ _ HT _ _ Ha) as [H1 H2].
  pose proof (avl_size _ H1) as E. unfold size_of, held in *. split; lia.
Qed.

(** ** What a source was sent is what it holds plus what expired *)
Lemma perm_tail (l : list (Z * envelope)) : l ≠ [] -> ∃ p, l = p :: tail l.
Proof. destruct l; [done|]. eauto. Qed.

Lemma seq_acct ops : ∀ s s' g, inv s -> st_fudge s = 4000 -> roomy s ops -> Forall (fun o => is_truncate o = false) ops ->
  run s ops = Some s' ->
  (∀ src, ∃ gone, g src ≡ₚ gone ++ (entries s src).*2 ∧ len gone = m_expired (meta_of s src)) ->
  ∀ src, ∃ gone, g src ++ puts_to src ops ≡ₚ gone ++ (entries s' src).*2 ∧ len gone = m_expired (meta_of s' src).
Proof.
  induction ops as [|o ops IH]; intros s s' g Hi Hfu Hro Ht Hr Hg src.
  { injection Hr as <-. cbn [puts_to omap list_omap]. rewrite app_nil_r. apply Hg. }
  cbn [run] in Hr. apply bind_Some in Hr as (s1 & Hs & Hr). destruct Hro as [Hroom Hro].
  apply Forall_cons in Ht as [Hto Ht]. pose proof (ProofsAcct.step_inv _ _ _ Hi Hs) as [Hi1 Hm1].
  pose proof (step_fudge _ _ _ Hi Hs) as Hf1.
  set (g1 := fun x => g x ++ puts_to x [o]).
  assert (Hg1 : ∀ x, ∃ gone, g1 x ≡ₚ gone ++ (entries s1 x).*2 ∧ len gone = m_expired (meta_of s1 x)).
  { unfold g1. destruct o as [e src' now|q pri now|src' q|]; try discriminate Hto; cbn [step] in Hs.
    - intros x. cbn [puts_to omap list_omap].
      destruct (put_env_spec e src' now s (inv_max s Hi) (inv_tree s Hi src'))
        as (f & sg' & Hf & Hocc & Hfree & Hok & Hent & Hexp & _ & _ & E).
      rewrite E in Hs. injection Hs as <-. unfold entries at 1. unfold meta_of at 1. cbn [st_index].
      destruct (decide (src' = x)) as [->|Hne].
      2:{ rewrite lookup_insert_ne by done. rewrite app_nil_r. apply Hg. }
      rewrite lookup_insert. destruct (Hg x) as (gone & G1 & G2).
      assert (Hlt : f < Z.max 0 (st_fudge s)).
      { destruct Hroom as (f0 & Hf0 & Hnin). rewrite kept_on_put_base, stored_entries in Hnin.
        destruct (decide (f0 < f)); [|lia]. exfalso. apply Hnin. apply Hocc. lia. }
      specialize (Hfree Hlt). rewrite Hent, Hexp.
      destruct (st_max s <=? Z.of_nat (length (entries s x))) eqn:Ef.
      + assert (Hne : entries s x ≠ []).
        { intros En. rewrite En in Ef. cbn in Ef. pose proof (inv_max s Hi). lia. }
        destruct (perm_tail _ Hne) as [[k v] Ep]. unfold base_of in *. rewrite Ef in *.
        exists (gone ++ [v]). split.
        * rewrite linsert_new_perm by done. rewrite G1. rewrite Ep at 1. cbn. rewrite <-!app_assoc. cbn. f_equiv.
          constructor. apply Permutation_app_comm.
        * rewrite len_app, G2. unfold len. cbn. lia.
      + unfold base_of in *. rewrite Ef in *. exists gone. split; [|rewrite G2; lia].
        rewrite linsert_new_perm by done. rewrite G1. rewrite <-!app_assoc. f_equiv. apply Permutation_app_comm.
    - destruct (get_env src' q s); [|done]. cbn in Hs. injection Hs as <-. intros x. cbn [puts_to omap list_omap].
      rewrite app_nil_r. apply Hg.
    - injection Hs as <-. intros x. cbn [puts_to omap list_omap]. rewrite app_nil_r. apply Hg. }
  destruct (IH s1 s' g1 Hi1 ltac:(congruence) (Hro _ Hs) Ht Hr Hg1 src) as (gone & G1 & G2).
  exists gone. split; [|done]. rewrite <-G1. unfold g1. rewrite <-app_assoc. f_equiv.
  change (o :: ops) with ([o] ++ ops). unfold puts_to. by rewrite omap_app.
Qed.

Lemma puts_to_app src l1 l2 : puts_to src (l1 ++ l2) = puts_to src l1 ++ puts_to src l2.
Proof. apply omap_app. Qed.

Lemma tstep_undone tid ch s th s' th' src : tstep tid ch s th = Some (s', th') ->
  put_done_to src th = [] ∧ put_done_to src th' = puts_to src (ret th') ∧ Forall (fun o => is_truncate o = false) (ret th').
Proof.
  intros H. split; [destruct th; try reflexivity; discriminate H|]. split; [destruct th'; cbn; try done; by destruct (decide _)|].
  destruct th'; cbn; repeat constructor.
Qed.

Lemma written_returns m ls : ∀ c, crun (initial m) ls = Some c ->
  (∀ src, written_to src c ≡ₚ puts_to src (returns (initial m) ls)) ∧
  Forall (fun o => is_truncate o = false) (returns (initial m) ls).
Proof.
  induction ls as [|l ls IH] using rev_ind; intros c H.
  { injection H as <-. split; [intros src; constructor|constructor]. }
  apply crun_snoc in H as (c1 & H1 & H2). rewrite (returns_snoc _ _ _ _ _ H1 H2). destruct (IH c1 H1) as [I1 I2].
  apply cstep_cases in H2 as [(x & -> & ->)|(tid & ch & th & s' & th' & -> & Ht & Hs & ->)].
  - cbn [returned_by]. rewrite app_nil_r. split; [|done]. intros src. rewrite <-I1. unfold written_to. cbn [cf_threads].
    rewrite bind_app. cbn. destruct x; cbn; by rewrite app_nil_r.
  - erewrite returned_ret by exact Ht. split.
    + intros src. rewrite puts_to_app, <-I1. destruct (tstep_undone _ _ _ _ _ _ src Hs) as (U1 & U2 & _).
      unfold written_to. cbn [cf_threads]. destruct (bind_upd (put_done_to src) _ _ _ th' Ht) as (rest & R1 & R2).
      rewrite R1, R2, U1, U2. cbn. apply Permutation_app_comm.
    + apply Forall_app. split; [done|]. by destruct (tstep_undone _ _ _ _ _ _ ""%string Hs) as (_ & _ & ?).
Qed.

Lemma written_called m ls c : crun (initial m) ls = Some c ->
  (∀ src, written_to src c ⊆+ calls_to src ls) ∧ (∀ e src, e ∈ written_to src c -> LCall (CPut e src) ∈ ls).
Proof.
  intros H. destruct (asked_calls ls m c H) as [I1 I2]. split.
  - intros src. etrans; [apply (done_to_asked src (cf_threads c))|apply I1].
  - intros e src He. unfold written_to in He. apply elem_of_list_bind in He as (th & He & Hin).
    apply elem_of_list_lookup in Hin as [tid Ht]. eapply I2; [exact Ht|].
    eapply elem_of_submseteq; [exact He|]. apply done_asked.
Qed.

Lemma spread_uncrowded m ls c : spread m ls -> crun (initial m) ls = Some c -> uncrowded m (returns (initial m) ls).
Proof.
  intros [Hs|Hs] H; [by left|right]. intros pre e src now post E.
  destruct (written_returns m ls c H) as [W _]. destruct (written_called m ls c H) as [C1 C2].
  assert (Ew : written_to src c ≡ₚ puts_to src pre ++ e :: puts_to src post).
  { rewrite W, E, puts_to_app. f_equiv. cbn. by rewrite decide_True by done. }
  assert (Hin : LCall (CPut e src) ∈ ls).
  { apply C2. rewrite Ew, elem_of_app, elem_of_cons. auto. }
  destruct (Hs _ _ Hin) as (Ha & Hb & Hc). split; [done|]. split; [done|].
  assert (Hle : puts_to src pre ++ [e] ⊆+ calls_to src ls).
  { etrans; [|apply C1]. rewrite Ew. apply submseteq_app; [done|]. apply submseteq_skip, submseteq_nil_l. }
  apply (filter_submseteq (fun x => e_ts e - 4000 <= e_ts x <= e_ts e + 4000)) in Hle.
  apply submseteq_length in Hle. rewrite filter_app, app_length in Hle.
  assert (E1 : length (filter (fun x => e_ts e - 4000 <= e_ts x <= e_ts e + 4000) [e]) = 1%nat).
  { rewrite filter_all; [done|]. constructor; [lia|constructor]. }
  rewrite E1 in Hle. lia.
Qed.

Theorem source_accounting m ls c src : 1 <= m -> spread m ls -> truncation_free ls -> crun (initial m) ls = Some c -> settled c src ->
  ∃ expired, written_to src c ≡ₚ expired ++ visible_to c src ∧ Z.of_nat (length expired) = visible_expired c src.
Proof.
  intros Hm Hsp Htf H Hse. destruct (visible_linear m ls c Hm Htf H) as (st & Hr & Hv). destruct (Hv src Hse) as [-> ->].
  destruct (written_returns m ls c H) as [W Wt].
  destruct (seq_acct (returns (initial m) ls) (new_store m) st (fun _ => []) (inv_new m Hm) eq_refl
              (uncrowded_roomy m _ Hm (spread_uncrowded m ls c Hsp H)) Wt Hr) with (src := src) as (gone & G1 & G2).
  { intros x. exists []. unfold entries, meta_of. cbn. by rewrite lookup_empty. }
  exists gone. rewrite stored_entries. split; [by rewrite W, <-G1|].
  unfold len in G2. rewrite G2. unfold meta_of, meta. rewrite lookup_fmap. by destruct (st_index st !! src).
Qed.

(** ** Every storage is its source's visible storage as long as nothing is truncated *)
Lemma tstep_indexed tid ch s th s' th' : tstep tid ch s th = Some (s', th') -> truncating th = false ->
  (∀ e src, th = PMiss e src -> sh_index s !! src = None) ->
  (∀ a, is_Some (sh_heap s !! a) -> ∃ src, sh_index s !! src = Some a) ->
  ∀ a, is_Some (sh_heap s' !! a) -> ∃ src, sh_index s' !! src = Some a.
Proof.
  intros H Hn Hmiss HI. 
  destruct th; try discriminate Hn; cbn [tstep] in H; step_cases H; cbn [sh_heap sh_index set_heap set_init add_ing add_count add_exp]; try exact HI.
  all: intros b Hb; try (apply HI; destruct (decide (b = a)) as [->|Hne]; [by eauto|by rewrite lookup_insert_ne in Hb by done]; fail).
  destruct (decide (b = sh_next s)) as [->|Hne].
  - exists src. by rewrite lookup_insert.
  - rewrite lookup_insert_ne in Hb by done. destruct (HI b Hb) as [x Hx]. exists x. rewrite lookup_insert_ne; [done|].
    intros <-. rewrite (Hmiss _ _ eq_refl) in Hx. done.
Qed.

Theorem all_indexed m ls c a : 1 <= m -> truncation_free ls -> crun (initial m) ls = Some c ->
  is_Some (sh_heap (cf_sh c) !! a) -> ∃ src, sh_index (cf_sh c) !! src = Some a.
Proof.
  intros Hm Htf H. revert a. revert c H. induction ls as [|l ls IH] using rev_ind; intros c H.
  { injection H as <-. cbn. intros a [? Hx]. by rewrite lookup_empty in Hx. }
  apply crun_snoc in H as (c1 & H1 & H2). apply truncation_free_snoc in Htf as [Hf Hl]. specialize (IH Hf c1 H1).
  destruct (lin_reach m ls c1 Hm H1 Hf) as (st & _ & HN).
  apply cstep_cases in H2 as [(x & -> & ->)|(tid & ch & th & s' & th' & -> & Ht & Hs & ->)]; cbn [cf_sh]; [done|].
  eapply tstep_indexed; eauto.
  - by eapply (ln_nt _ _ _ _ HN).
  - intros e src ->. by eapply (ln_miss _ _ _ _ HN).
Qed.

(** ** The size counter *)
Lemma quiescent_none c : quiescent c -> rooms (cf_threads c) = [] ∧ counteds (cf_threads c) = [].
Proof.
  unfold quiescent, rooms, counteds. induction (cf_threads c) as [|th ths IH]; intros Hq; [done|].
  destruct IH as [I1 I2]; [intros x Hx; apply Hq; by constructor|]. cbn. rewrite I1, I2.
  assert (Hf : finished th = true) by (apply Hq; constructor). destruct th; try discriminate Hf; done.
Qed.

Theorem count_exact m ls c : 1 <= m -> spread m ls -> crun (initial m) ls = Some c -> quiescent c ->
  sh_count (cf_sh c) = wrap64 (Z.of_nat (length (all_held c))).
Proof.
  intros Hm Hsp H Hq. assert (Hnc : ¬ crashed c).
  { intros Hp. by specialize (Hq _ Hp). }
  pose proof (acct_reach m ls c Hm Hsp H Hnc) as [_ HC]. destruct (quiescent_none c Hq) as [E1 E2].
  rewrite HC, E1, E2. f_equal. unfold len, all_held, held_in. cbn. lia.
Qed.

Theorem conservation_conc m ls c : 1 <= m -> spread m ls -> crun (initial m) ls = Some c -> quiescent c ->
  ∃ gone, all_written c ≡ₚ gone ++ all_held c ∧ Z.of_nat (length gone) = sh_expired (cf_sh c).
Proof.
  intros Hm Hsp H Hq. assert (Hnc : ¬ crashed c).
  { intros Hp. by specialize (Hq _ Hp). }
  pose proof (acct_reach m ls c Hm Hsp H Hnc) as [(gone & G1 & G2) _]. destruct (quiescent_none c Hq) as [E1 E2].
  exists gone. split; [exact G2|]. rewrite E2 in G1. unfold len in G1. cbn in G1. lia.
Qed.

(** ** Get reads one instant of one storage *)
Definition reading (th : thread) : option (string * query * nat) :=
  match th with GWait src q a | GIn src q a _ => Some (src, q, a) | _ => None end.
Lemma tstep_reading tid ch s th s' th' src q a : tstep tid ch s th = Some (s', th') -> reading th' = Some (src, q, a) ->
  reading th = Some (src, q, a) ∨ th = GStart src q ∧ sh_index s !! src = Some a.
Proof.
  intros H Ho. destruct th; cbn [tstep] in H; step_cases H; try discriminate Ho.
  all: cbn [reading] in Ho; injection Ho as <- <- <-; eauto.
Qed.

Lemma reading_since m ls : ∀ c tid th src q a, crun (initial m) ls = Some c -> cf_threads c !! tid = Some th ->
  reading th = Some (src, q, a) ->
  ∃ l1 l2 c1, ls = l1 ++ l2 ∧ crun (initial m) l1 = Some c1 ∧ cf_threads c1 !! tid = Some (GStart src q) ∧
    sh_index (cf_sh c1) !! src = Some a.
Proof.
  induction ls as [|l ls IH] using rev_ind; intros c tid th src q a H Ht Hr.
  { injection H as <-. cbn in Ht. by rewrite lookup_nil in Ht. }
  apply crun_snoc in H as (c1 & H1 & H2).
  assert (Hold : ∀ th0, cf_threads c1 !! tid = Some th0 -> reading th0 = Some (src, q, a) ->
    ∃ l1 l2 c2, ls ++ [l] = l1 ++ l2 ∧ crun (initial m) l1 = Some c2 ∧ cf_threads c2 !! tid = Some (GStart src q) ∧
    sh_index (cf_sh c2) !! src = Some a).
  { intros th0 Ht0 Hr0. destruct (IH c1 tid th0 src q a H1 Ht0 Hr0) as (l1 & l2 & c2 & -> & Hc & Hx & Hy).
    exists l1, (l2 ++ [l]), c2. rewrite app_assoc. done. }
  apply cstep_cases in H2 as [(x & -> & ->)|(tid' & ch & th1 & s' & th' & -> & Ht1 & Hs & ->)]; cbn [cf_threads] in Ht.
  - apply lookup_app_Some in Ht as [Ht|[_ Ht]]; [by eapply Hold|]. apply list_lookup_singleton_Some in Ht as [_ <-]. by destruct x.
  - apply insert_Some in Ht as [[<- ->]|[_ Ht]]; [|by eapply Hold].
    destruct (tstep_reading _ _ _ _ _ _ _ _ _ Hs Hr) as [Hr0|[-> Hi]]; [by eapply Hold|].
    exists ls, [LStep tid' ch], c1. done.
Qed.

Theorem get_atomic m ls tid ch c src q res : crun (initial m) (ls ++ [LStep tid ch]) = Some c ->
  cf_threads c !! tid = Some (GDone src q res) ->
  ∃ l1 l2 c1, ls = l1 ++ l2 ∧ crun (initial m) l1 = Some c1 ∧ cf_threads c1 !! tid = Some (GStart src q) ∧
    match sh_index (cf_sh c1) !! src with
    | None => res = []
    | Some a => ∃ c2 sg, crun (initial m) ls = Some c2 ∧ sh_heap (cf_sh c2) !! a = Some sg ∧
        ∀ st g, st_index st !! src = Some g -> sg_tree g = cs_tree sg -> get_env src q st = Some res
    end.
Proof.
  intros H Hd. apply crun_snoc in H as (c2 & H1 & H2).
  apply cstep_cases in H2 as [(x & ? & _)|(tid' & ch' & th & s' & th' & [= <- <-] & Ht & Hs & ->)]; [done|].
  cbn [cf_threads] in Hd. rewrite list_lookup_insert in Hd by (by eapply lookup_lt_Some). injection Hd as ->.
  destruct (done_get _ _ _ _ _ _ _ _ _ Hs eq_refl) as [(-> & Hi & -> & _)|(a & t0 & sg & -> & Ha & Hg & _ & _)].
  - exists ls, [], c2. rewrite app_nil_r, Hi. done.
  - destruct (reading_since m ls c2 tid _ src q a H1 Ht eq_refl) as (l1 & l2 & c1 & El & Hc1 & Hx & Hy).
    exists l1, l2, c1. rewrite Hy. repeat split; try done. exists c2, sg. repeat split; try done.
    intros st g Hst Hg2. rewrite get_env_tree, Hst, Hg2. done.
Qed.
