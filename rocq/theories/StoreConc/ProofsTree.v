(** Invariants of the storages under any interleaving. *)
From stdpp Require Import prelude gmap strings.
From Coq Require Import ZifyBool ZifyNat.
From Verif.Base Require Import GoInt Envelope.
From Verif.Store Require Import Avl AvlProofs GoHeap GoHeapProofs Model Spec ProofsBase.
From Verif.StoreConc Require Import Model Spec ProofsLock.
Open Scope Z_scope.
#[local] Opaque find_fudge avl_put avl_remove avl_left get_tree lookup insert heap_pop heap_push.

Definition size_of (sg : cstorage) : Z := Z.of_nat (length (held sg)).

Record trees (m : Z) (s : shared) (ths : list thread) : Prop := {
  tr_max : sh_max s = m;
  tr_ok : ∀ a sg, sh_heap s !! a = Some sg -> avl_ok (cs_tree sg) ∧ size_of sg <= m;
  tr_room : ∀ tid e src a sg, ths !! tid = Some (PRoom e src a) -> sh_heap s !! a = Some sg -> size_of sg < m;
  tr_some : ∀ tid n h src a sg, ths !! tid = Some (TCounted n h src a) -> sh_heap s !! a = Some sg -> 1 <= size_of sg;
  tr_read : ∀ tid src q a t0 sg, ths !! tid = Some (GIn src q a t0) -> sh_heap s !! a = Some sg -> cs_tree sg = t0
}.

(** How a step changes the storages: the heap as before with one storage replaced, and by what *)
Inductive edit (m : Z) (a : nat) (th th' : thread) (sg sg' : cstorage) : Prop :=
| ed_keep : cs_tree sg' = cs_tree sg -> edit m a th th' sg sg'
| ed_evict e src k x l : th = PIn e src a -> th' = PRoom e src a ->
    m <= size_of sg -> held sg = (k, x) :: l -> held sg' = l ->
    m_expired (cs_meta sg') = m_expired (cs_meta sg) + 1 -> edit m a th th' sg sg'
| ed_put e src f : th = PRoom e src a -> th' = PDone e src ->
    0 <= f <= 4000 -> (∀ i, 0 <= i < f -> wrap64 (e_ts e + i) ∈ (held sg).*1) ->
    (f < 4000 -> wrap64 (e_ts e + f) ∉ (held sg).*1) ->
    held sg' = linsert (wrap64 (e_ts e + f)) e (held sg) ->
    m_expired (cs_meta sg') = m_expired (cs_meta sg) -> edit m a th th' sg sg'
| ed_prune n h src k x l : th = TCounted n h src a -> (∀ n h src, th' ≠ TCounted n h src a) -> (∀ b e src, th' ≠ PRoom e src b) ->
    held sg = (k, x) :: l -> held sg' = l -> edit m a th th' sg sg'.

Lemma avl_size t : avl_ok (V:=envelope) t -> av_size t = Z.of_nat (length (inorder (av_root t))).
Proof. by intros (_ & _ & ?). Qed.

Lemma left_remove t t' : avl_ok t -> ('(k, _) ← avl_left t; avl_remove k t) = Some t' ->
  ∃ k x l, inorder (av_root t) = (k, x) :: l ∧ inorder (av_root t') = l ∧ avl_ok (V:=envelope) t'.
Proof.
  intros Hok H. apply bind_Some in H as ([k x] & Hl & H). rewrite avl_left_ok in Hl.
  destruct (inorder (av_root t)) as [|[k' x'] l] eqn:E; [done|]. cbn in Hl. injection Hl as -> ->.
  destruct (avl_remove_head k x l t Hok E) as (t2 & E2 & Hok2 & Hi2). rewrite E2 in H. injection H as <-. eauto 10.
Qed.

Lemma left_remove_panic t : avl_ok (V:=envelope) t -> ('(k, _) ← avl_left t; avl_remove k t) = None -> inorder (av_root t) = [].
Proof.
  intros Hok H. rewrite avl_left_ok in H. destruct (inorder (av_root t)) as [|[k x] l] eqn:E; [done|].
  cbn [head mbind option_bind] in H. destruct (avl_remove_head k x l t Hok E) as (t2 & E2 & _). congruence.
Qed.

Lemma put_tree e t : avl_ok t -> ∃ t' k v l,
  avl_put (wrap64 (e_ts e + find_fudge (Z.to_nat 4000) 0 (e_ts e) t)) e t = Some t' ∧ avl_ok t' ∧
  inorder (av_root t') = linsert (wrap64 (e_ts e + find_fudge (Z.to_nat 4000) 0 (e_ts e) t)) e (inorder (av_root t)) ∧
  avl_left t' = Some (k, v) ∧ inorder (av_root t') = (k, v) :: l.
Proof.
  intros Hok. set (kk := wrap64 _). destruct (avl_put_ok kk e t Hok) as (t' & E & Hok' & Hi).
  rewrite E. destruct (inorder (av_root t')) as [|[k v] l] eqn:El.
  - exfalso. symmetry in Hi. apply (f_equal length) in Hi. rewrite linsert_length in Hi by apply Hok.
    destruct (has_key _ _) eqn:Ek; cbn in Hi; [|lia].
    apply has_key_true in Ek. apply nil_length_inv in Hi. rewrite Hi in Ek. by inversion Ek.
  - exists t', k, v, l. rewrite avl_left_ok, El. auto.
Qed.

(** the tree part of a step *)
Inductive tree_step (m : Z) (s : shared) (th : thread) (s' : shared) (th' : thread) : Prop :=
| ts_same : sh_heap s' = sh_heap s -> tree_step m s th s' th'
| ts_new e src : th = PMiss e src -> th' = PWait e src (sh_next s) ->
    sh_heap s' = <[sh_next s := mk_cs avl_new meta_zero None ∅]> (sh_heap s) -> tree_step m s th s' th'
| ts_edit a sg sg' : sh_heap s !! a = Some sg -> sh_heap s' = <[a := sg']> (sh_heap s) -> avl_ok (cs_tree sg') ->
    edit m a th th' sg sg' -> tree_step m s th s' th'.

Lemma tstep_tree m tid ch s th s' th' ths : 1 <= m -> trees m s ths ->
  tstep tid ch s th = Some (s', th') -> tree_step m s th s' th'.
Proof.
  intros Hm HT H.
  assert (HO : ∀ a sg, sh_heap s !! a = Some sg -> avl_ok (cs_tree sg)) by (intros; by eapply tr_ok).
  destruct th; cbn [tstep] in H; step_cases H; try (by apply ts_same); try (by eapply ts_new).
  all: try match goal with E : lock _ _ = Some _ |- _ => apply lock_Some in E as (? & ? & ->) end.
  all: try match goal with E : rlock _ _ = Some _ |- _ => apply rlock_Some in E as (? & ->) end.
  all: try (eapply ts_edit; [eassumption|reflexivity|unfold runlock; cbn [cs_tree]; eapply HO; eassumption|apply ed_keep; reflexivity]; fail).
  - match goal with E : mbind _ (avl_left _) = Some _ |- _ => apply left_remove in E as (k & v & l & E1 & E2 & Hok); [|by eapply HO] end.
    eapply ts_edit; [eassumption|reflexivity|done|]. eapply (ed_evict _ _ _ _ _ _ _ _ k v l); [reflexivity|reflexivity| |exact E1|exact E2|reflexivity].
    unfold size_of, held. rewrite <-avl_size by (by eapply HO). rewrite (tr_max _ _ _ HT) in E. lia.
  - apply bind_Some in E as (t' & Hput & E). apply bind_Some in E as ([k v] & Hl & E). injection E as <- <-.
    destruct (put_tree e (cs_tree x)) as (t2 & k2 & v2 & l2 & E1 & E2 & E3 & E4 & E5); [by eapply HO|].
    rewrite Hput in E1. injection E1 as <-.
    destruct (find_fudge_spec (Z.to_nat 4000) 0 (e_ts e) (cs_tree x)) as (F1 & F2 & F3); [by eapply HO|].
    eapply ts_edit; [eassumption|reflexivity|done|]. eapply ed_put; try reflexivity; try exact E3; [lia|done|].
    intros. apply F3. lia.
  - match goal with E : mbind _ (avl_left _) = Some _ |- _ => apply left_remove in E as (k & v & l & E1' & E2' & Hok); [|by eapply HO] end.
    eapply ts_edit; [eassumption|reflexivity|done|]. eapply (ed_prune _ _ _ _ _ _ _ _ _ k v l); [reflexivity|done|done|exact E1'|exact E2'].
  - match goal with E : mbind _ (avl_left _) = Some _ |- _ => apply left_remove in E as (k & v & l & E1' & E2' & Hok); [|by eapply HO] end.
    eapply ts_edit; [eassumption|reflexivity|done|]. eapply (ed_prune _ _ _ _ _ _ _ _ _ k v l); [reflexivity|done|done|exact E1'|exact E2'].
Qed.

Lemma trees_initial m : trees m (new_shared m) [].
Proof. split; [done|..]; cbn; intros *; rewrite ?lookup_empty, ?lookup_nil; done. Qed.

Lemma tstep_max tid ch s th s' th' : tstep tid ch s th = Some (s', th') -> sh_max s' = sh_max s.
Proof. intros H. destruct th; cbn [tstep] in H; step_cases H; reflexivity. Qed.

(** entering the states that promise something about a storage *)

Lemma enter_room tid ch s th s' th' e src a : tstep tid ch s th = Some (s', th') -> th' = PRoom e src a ->
  th = PIn e src a ∧ ∃ sg, sh_heap s !! a = Some sg ∧
    (av_size (cs_tree sg) < sh_max s ∧ sh_heap s' = sh_heap s ∨
     sh_max s <= av_size (cs_tree sg) ∧ ∃ sg', sh_heap s' = <[a:=sg']> (sh_heap s) ∧ ('(k, _) ← avl_left (cs_tree sg); avl_remove k (cs_tree sg)) = Some (cs_tree sg') ∧
       cs_meta sg' = mk_meta (m_count (cs_meta sg)) (m_expired (cs_meta sg) + 1) (m_oldest (cs_meta sg)) (m_newest (cs_meta sg))).
Proof.
  intros H Ht. destruct th; cbn [tstep] in H; step_cases H; try discriminate Ht.
  - injection Ht as -> -> ->. split; [done|]. eexists. split; [eassumption|]. right. split; [lia|]. eexists. split; [reflexivity|]. split; [assumption|reflexivity].
  - injection Ht as -> -> ->. split; [done|]. eexists. split; [eassumption|]. left. split; [lia|]. done.
Qed.
Lemma enter_counted tid ch s th s' th' n h src a : tstep tid ch s th = Some (s', th') -> th' = TCounted n h src a ->
  th = TIn n h src a ∧ sh_heap s' = sh_heap s ∧ ∃ sg, sh_heap s !! a = Some sg ∧ av_size (cs_tree sg) ≠ 0.
Proof.
  intros H Ht. destruct th; cbn [tstep] in H; step_cases H; try discriminate Ht.
  injection Ht as -> -> -> ->. split; [done|]. split; [done|]. eexists. split; [eassumption|]. lia.
Qed.
Lemma enter_read tid ch s th s' th' src q a t0 : tstep tid ch s th = Some (s', th') -> th' = GIn src q a t0 ->
  ∃ sg sg', sh_heap s !! a = Some sg ∧ sh_heap s' = <[a:=sg']> (sh_heap s) ∧ cs_tree sg' = t0.
Proof.
  intros H Ht. destruct th; cbn [tstep] in H; step_cases H; try discriminate Ht.
  injection Ht as -> -> -> <-. apply rlock_Some in H1 as (_ & ->). eexists _, _. split; [eassumption|]. split; reflexivity.
Qed.

Lemma linsert_length_le k (e : envelope) l : sorted l -> (length l <= length (linsert k e l) <= S (length l))%nat.
Proof. intros Hs. rewrite linsert_length by done. destruct (has_key _ _); lia. Qed.

(** A call that touches a storage's tree holds its write lock; others do not *)
Lemma edit_alone m s ths tid th th' a sg sg' tid2 th2 : locks s ths -> ths !! tid = Some th -> sh_heap s !! a = Some sg ->
  edit m a th th' sg sg' -> ths !! tid2 = Some th2 -> tid2 ≠ tid -> (holds_w th2 = Some a ∨ holds_r th2 = Some a) ->
  cs_tree sg' = cs_tree sg.
Proof.
  intros HL Ht Ha HE H2 Hne Hh.
  assert (Hw : holds_w th = Some a -> False).
  { intros Hw. pose proof (lk_w _ _ HL _ _ _ _ Ht Hw Ha) as W. destruct Hh as [Hh|Hh].
    - pose proof (lk_w _ _ HL _ _ _ _ H2 Hh Ha). congruence.
    - pose proof (lk_r _ _ HL _ _ _ _ H2 Hh Ha) as R. rewrite (lk_x _ _ HL _ _ Ha) in R by congruence. set_solver. }
  destruct HE as [?|???????|????|???????]; [done|..]; subst; exfalso; by apply Hw.
Qed.

Lemma trees_step m tid ch s th s' th' ths : 1 <= m -> locks s ths -> trees m s ths -> ths !! tid = Some th ->
  tstep tid ch s th = Some (s', th') -> trees m s' (<[tid:=th']> ths).
Proof.
  intros Hm HL HT Ht H. pose proof (tstep_tree m _ _ _ _ _ _ _ Hm HT H) as HS.
  assert (Hsz : ∀ a sg, sh_heap s !! a = Some sg -> av_size (cs_tree sg) = size_of sg).
  { intros a sg Ha. apply avl_size. by eapply tr_ok. }
  split.
  - rewrite (tstep_max _ _ _ _ _ _ H). apply (tr_max _ _ _ HT).
  - intros a sg Ha. destruct HS as [Eh|e src -> -> Eh|b sg0 sg' Hb Eh Hok HE]; rewrite Eh in Ha.
    + by eapply tr_ok.
    + apply lookup_insert_Some in Ha as [[_ <-]|[_ Ha]]; [|by eapply tr_ok]. split; [apply avl_ok_new|]. unfold size_of, held; cbn [cs_tree av_root avl_new inorder length]. clear -Hm; lia.
    + apply lookup_insert_Some in Ha as [[<- <-]|[_ Ha]]; [|by eapply tr_ok]. split; [done|].
      pose proof (proj2 (tr_ok _ _ _ HT _ _ Hb)) as Hle. unfold size_of in *.
      destruct HE as [E|e src k x l _ _ _ E1 E2 _|e src f -> -> _ _ _ E2 _|n h src k x l _ _ _ E1 E2].
      * unfold held in *. by rewrite E.
      * rewrite E1 in Hle. rewrite E2. cbn in Hle. lia.
      * pose proof (tr_room _ _ _ HT _ _ _ _ _ Ht Hb) as Hr. unfold size_of in Hr. rewrite E2.
        assert (Hs : sorted (held sg0)) by apply (tr_ok _ _ _ HT _ _ Hb).
        pose proof (linsert_length_le (wrap64 (e_ts e + f)) e (held sg0) Hs) as Hl. clear -Hr Hl. lia.
      * rewrite E1 in Hle. rewrite E2. cbn in Hle. lia.
  - intros tid2 e src a sg H2 Ha. apply insert_Some in H2 as [[<- Eth]|[Hne H2]].
    + destruct (enter_room _ _ _ _ _ _ _ _ _ H Eth) as (_ & sg0 & Ha0 & [[Hlt Eh]|(Hge & sg' & Eh & Er & _)]).
      * rewrite Eh in Ha. replace sg0 with sg in * by congruence. rewrite (Hsz _ _ Ha) in Hlt.
        rewrite (tr_max _ _ _ HT) in Hlt. done.
      * rewrite Eh, lookup_insert in Ha. injection Ha as <-. destruct (tr_ok _ _ _ HT _ _ Ha0) as [Hok Hle].
        apply left_remove in Er as (k & x & l & E1 & E2 & _); [|done]. unfold size_of, held in *.
        rewrite E1 in Hle. rewrite E2. cbn in Hle. lia.
    + destruct HS as [Eh|e' src' -> -> Eh|b sg0 sg' Hb Eh Hok HE]; rewrite Eh in Ha.
      * by eapply (tr_room _ _ _ HT).
      * apply lookup_insert_Some in Ha as [[_ <-]|[_ Ha]]; [unfold size_of, held; cbn [cs_tree av_root avl_new inorder length]; clear -Hm; lia|]. by eapply (tr_room _ _ _ HT).
      * apply lookup_insert_Some in Ha as [[<- <-]|[_ Ha]]; [|by eapply (tr_room _ _ _ HT)].
        assert (E : cs_tree sg' = cs_tree sg0) by (eapply (edit_alone m); [exact HL|exact Ht|exact Hb|exact HE|exact H2|congruence|cbn; auto]).
        pose proof (tr_room _ _ _ HT _ _ _ _ _ H2 Hb). unfold size_of, held in *. by rewrite E.
  - intros tid2 n h src a sg H2 Ha. apply insert_Some in H2 as [[<- Eth]|[Hne H2]].
    + destruct (enter_counted _ _ _ _ _ _ _ _ _ _ H Eth) as (_ & Eh & sg0 & Ha0 & Hnz). rewrite Eh in Ha.
      rewrite (Hsz _ _ Ha0) in Hnz. replace sg0 with sg in * by congruence. unfold size_of in *. lia.
    + assert (Hold : is_Some (sh_heap s !! a)).
      { eapply lk_addr; eauto. cbn. constructor. }
      destruct HS as [Eh|e' src' -> -> Eh|b sg0 sg' Hb Eh Hok HE]; rewrite Eh in Ha.
      * by eapply (tr_some _ _ _ HT).
      * apply lookup_insert_Some in Ha as [[<- <-]|[_ Ha]]; [|by eapply (tr_some _ _ _ HT)].
        exfalso. destruct Hold as [x Hx]. pose proof (lk_fresh _ _ HL _ _ Hx). lia.
      * apply lookup_insert_Some in Ha as [[<- <-]|[_ Ha]]; [|by eapply (tr_some _ _ _ HT)].
        assert (E : cs_tree sg' = cs_tree sg0) by (eapply (edit_alone m); [exact HL|exact Ht|exact Hb|exact HE|exact H2|congruence|cbn; auto]).
        pose proof (tr_some _ _ _ HT _ _ _ _ _ _ H2 Hb). unfold size_of, held in *. by rewrite E.
  - intros tid2 src q a t0 sg H2 Ha. apply insert_Some in H2 as [[<- Eth]|[Hne H2]].
    + destruct (enter_read _ _ _ _ _ _ _ _ _ _ H Eth) as (sg0 & sg' & Ha0 & Eh & Et).
      rewrite Eh, lookup_insert in Ha. injection Ha as <-. done.
    + assert (Hold : is_Some (sh_heap s !! a)).
      { eapply lk_addr; eauto. cbn. constructor. }
      destruct HS as [Eh|e' src' -> -> Eh|b sg0 sg' Hb Eh Hok HE]; rewrite Eh in Ha.
      * by eapply (tr_read _ _ _ HT).
      * apply lookup_insert_Some in Ha as [[<- <-]|[_ Ha]]; [|by eapply (tr_read _ _ _ HT)].
        exfalso. destruct Hold as [x Hx]. pose proof (lk_fresh _ _ HL _ _ Hx). lia.
      * apply lookup_insert_Some in Ha as [[<- <-]|[_ Ha]]; [|by eapply (tr_read _ _ _ HT)].
        assert (E : cs_tree sg' = cs_tree sg0) by (eapply (edit_alone m); [exact HL|exact Ht|exact Hb|exact HE|exact H2|congruence|cbn; auto]).
        rewrite E. by eapply (tr_read _ _ _ HT).
Qed.

Lemma trees_call m s ths c : trees m s ths -> trees m s (ths ++ [start_of c]).
Proof.
  intros HT. destruct HT. split; auto.
  all: intros tid *; intros H; intros; apply lookup_app_Some in H as [H|[_ H]]; [eauto|apply list_lookup_singleton_Some in H as [_ H]];
    destruct c; discriminate H.
Qed.

Theorem trees_reach m ls c : 1 <= m -> crun (initial m) ls = Some c -> locks (cf_sh c) (cf_threads c) ∧ trees m (cf_sh c) (cf_threads c).
Proof.
  intros Hm. apply (crun_inv (fun c => locks (cf_sh c) (cf_threads c) ∧ trees m (cf_sh c) (cf_threads c))).
  { split; [apply locks_initial|apply trees_initial]. }
  intros c1 l c2 [HL HT] H.
  apply cstep_cases in H as [(x & _ & ->)|(tid & ch & th & s' & th' & _ & Ht & Hs & ->)]; cbn.
  - split; [by apply locks_call|by apply trees_call].
  - split; [by eapply locks_step|by eapply trees_step].
Qed.
