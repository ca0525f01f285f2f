(** Without truncation the concurrent store behaves like the sequential one, with the calls executed
    in the order in which they return. *)
From stdpp Require Import prelude gmap strings.
From Coq Require Import ZifyBool ZifyNat.
From Verif.Base Require Import GoInt Envelope.
From Verif.Store Require Import Avl AvlProofs GoHeap GoHeapProofs Model Spec ProofsBase ProofsHist ProofsAcct.
From Verif.StoreConc Require Import Model Spec ProofsLock ProofsTree.
Open Scope Z_scope.
#[local] Opaque find_fudge avl_put avl_remove avl_left get_tree lookup insert heap_pop heap_push.

(** ** Returns, by the last step *)
Lemma returns_app c l1 l2 c1 : crun c l1 = Some c1 -> returns c (l1 ++ l2) = returns c l1 ++ returns c1 l2.
Proof.
  revert c. induction l1 as [|l l1 IH]; intros c H; [by injection H as <-|]. cbn [app returns crun] in *.
  apply bind_Some in H as (c' & Hs & H). rewrite Hs, (IH c' H), app_assoc. done.
Qed.
Lemma returns_snoc c ls l c1 c2 : crun c ls = Some c1 -> cstep c1 l = Some c2 ->
  returns c (ls ++ [l]) = returns c ls ++ returned_by l c2.
Proof. intros H1 H2. rewrite (returns_app c ls [l] c1 H1). cbn [returns]. rewrite H2, app_nil_r. done. Qed.

Lemma run_app s l1 l2 : run s (l1 ++ l2) = s1 ← run s l1; run s1 l2.
Proof.
  revert s. induction l1 as [|o l1 IH]; intros s; [done|]. cbn [run app].
  destruct (step s o); cbn [mbind option_bind]; [apply IH|done].
Qed.

(** ** The abstraction *)
Definition empty_sg : storage := mk_storage meta_zero avl_new.
Definition abs (s : store) (src : string) : storage := default empty_sg (st_index s !! src).
Definition bumped (m : meta_info) : meta_info := mk_meta (m_count m) (m_expired m + 1) (m_oldest m) (m_newest m).
Definition same (g : storage) (sg : cstorage) : Prop := cs_tree sg = sg_tree g ∧ cs_meta sg = sg_meta g.
Definition after_evict (m : Z) (g : storage) (sg : cstorage) : Prop :=
  if m <=? av_size (sg_tree g)
  then ('(k, _) ← avl_left (sg_tree g); avl_remove k (sg_tree g)) = Some (cs_tree sg) ∧ cs_meta sg = bumped (sg_meta g)
  else same g sg.
Definition own (th : thread) : option (string * nat) :=
  match th with
  | PWait _ src a | PIn _ src a | PRoom _ src a | GWait src _ a | GIn src _ a _ => Some (src, a)
  | _ => None
  end.
Definition truncating (th : thread) : bool :=
  match th with
  | TStart | TRange _ _ _ _ | TPush _ _ _ _ _ _ | TLoop _ _ | TWait _ _ _ _ | TIn _ _ _ _ | TCounted _ _ _ _ | TDel _ _ _ _ | TDone => true
  | _ => false
  end.

Record lin (m : Z) (s : shared) (ths : list thread) (st : store) : Prop := {
  ln_max : st_max st = m;
  ln_fudge : st_fudge st = 4000;
  ln_inv : inv st;
  ln_nt : ∀ tid th, ths !! tid = Some th -> truncating th = false;
  ln_none : ∀ src, sh_index s !! src = None -> st_index st !! src = None;
  ln_miss : ∀ tid e src, ths !! tid = Some (PMiss e src) -> sh_index s !! src = None;
  ln_inj : ∀ s1 s2 a, sh_index s !! s1 = Some a -> sh_index s !! s2 = Some a -> s1 = s2;
  ln_own : ∀ tid th src a, ths !! tid = Some th -> own th = Some (src, a) -> sh_index s !! src = Some a;
  ln_eq : ∀ src a sg, sh_index s !! src = Some a -> sh_heap s !! a = Some sg ->
    (∀ tid e, ths !! tid ≠ Some (PRoom e src a)) -> same (abs st src) sg;
  ln_room : ∀ tid e src a sg, ths !! tid = Some (PRoom e src a) -> sh_heap s !! a = Some sg -> after_evict m (abs st src) sg
}.

Lemma lin_initial m : 1 <= m -> lin m (new_shared m) [] (new_store m).
Proof.
  intros Hm. split; try done; cbn; try (by apply inv_new); intros *; rewrite ?lookup_empty, ?lookup_nil; done.
Qed.

(** The sequential Put on the abstraction of what a Put finds after making room *)
Lemma put_abs m st e src sg t oldest v : 1 <= m -> inv st -> st_max st = m -> st_fudge st = 4000 ->
  after_evict m (abs st src) sg ->
  avl_put (wrap64 (e_ts e + find_fudge (Z.to_nat 4000) 0 (e_ts e) (cs_tree sg))) e (cs_tree sg) = Some t ->
  avl_left t = Some (oldest, v) ->
  ∃ st', put_env e src 0 st = Some st' ∧
    st_index st' = <[src := mk_storage (mk_meta (m_count (cs_meta sg)) (m_expired (cs_meta sg)) oldest
      (if m_newest (cs_meta sg) <? e_ts e then e_ts e else m_newest (cs_meta sg))) t]> (st_index st).
Proof.
  intros Hm Hi Hmx Hf Ha Hp Hl. unfold put_env.
  assert (Hg : ∃ s1, get_or_init src (add_ingress 1 st) = (s1, abs st src) ∧ st_max s1 = m ∧ st_fudge s1 = 4000 ∧
    (∀ x, <[src:=x]> (st_index s1) = <[src:=x]> (st_index st))).
  { unfold get_or_init, abs. cbn. destruct (st_index st !! src) as [g|] eqn:E; cbn [default].
    - eexists. split; [reflexivity|]. auto.
    - eexists. split; [reflexivity|]. cbn. repeat split; auto. intros x. by rewrite insert_insert. }
  destruct Hg as (s1 & -> & Hm1 & Hf1 & Hi1). unfold insert_or_swap. rewrite Hm1, Hf1. unfold after_evict in Ha.
  destruct (m <=? av_size (sg_tree (abs st src))).
  - destruct Ha as [Ht Hme]. apply bind_Some in Ht as ([k x] & Hl0 & Hr).
    rewrite Hl0. cbn [mbind option_bind]. rewrite Hr. cbn [mbind option_bind sg_tree sg_meta].
    rewrite Hp. cbn [mbind option_bind]. rewrite Hl. cbn [mbind option_bind].
    eexists. split; [reflexivity|]. cbn. rewrite Hi1, Hme. done.
  - destruct Ha as [Ht Hme]. cbn [mbind option_bind]. rewrite <-Ht, <-Hme. rewrite Hp. cbn [mbind option_bind]. rewrite Hl.
    cbn [mbind option_bind]. eexists. split; [reflexivity|]. cbn. rewrite Hi1. done.
Qed.

(** What the sequential store does at a step *)
Definition ret (th' : thread) : list op :=
  match th' with PDone e src => [OPut e src 0] | GDone src q _ => [OGet src q] | _ => [] end.

(** Every step that is not the last step of a Put *)
Lemma abs_same st st' src : st_index st' = st_index st -> abs st' src = abs st src.
Proof. unfold abs. by intros ->. Qed.

Lemma tstep_own tid ch s th s' th' src a : tstep tid ch s th = Some (s', th') -> own th' = Some (src, a) ->
  own th = Some (src, a) ∨ sh_index s !! src = Some a ∨ (∃ e, th = PMiss e src ∧ a = sh_next s).
Proof.
  intros H Ho. destruct th; cbn [tstep] in H; step_cases H; try discriminate Ho.
  all: cbn [own] in Ho; injection Ho as <- <-; eauto 10.
Qed.
Lemma tstep_nt tid ch s th s' th' : tstep tid ch s th = Some (s', th') -> truncating th = false -> truncating th' = false.
Proof. intros H Hn. destruct th; try discriminate Hn; cbn [tstep] in H; step_cases H; reflexivity. Qed.

Lemma done_put tid ch s th s' th' e src : tstep tid ch s th = Some (s', th') -> th' = PDone e src ->
  ∃ a sg t oldest v, th = PRoom e src a ∧ sh_heap s !! a = Some sg ∧
    avl_put (wrap64 (e_ts e + find_fudge (Z.to_nat 4000) 0 (e_ts e) (cs_tree sg))) e (cs_tree sg) = Some t ∧
    avl_left t = Some (oldest, v) ∧ sh_index s' = sh_index s ∧
    sh_heap s' = <[a := mk_cs t (mk_meta (m_count (cs_meta sg)) (m_expired (cs_meta sg)) oldest
      (if m_newest (cs_meta sg) <? e_ts e then e_ts e else m_newest (cs_meta sg))) None (cs_readers sg)]> (sh_heap s).
Proof.
  intros H Ht. destruct th; cbn [tstep] in H; step_cases H; try discriminate Ht.
  injection Ht as -> ->. apply bind_Some in E as (t' & Hput & E). apply bind_Some in E as ([k v] & Hl & E). injection E as <- <-.
  repeat eexists; eauto.
Qed.
Lemma done_get tid ch s th s' th' src q res : tstep tid ch s th = Some (s', th') -> th' = GDone src q res ->
  (th = GStart src q ∧ sh_index s !! src = None ∧ res = [] ∧ s' = s) ∨
  (∃ a t0 sg, th = GIn src q a t0 ∧ sh_heap s !! a = Some sg ∧ get_tree q (cs_tree sg) = Some res ∧
     sh_index s' = sh_index s ∧ sh_heap s' = <[a := runlock tid sg]> (sh_heap s)).
Proof.
  intros H Ht. destruct th; cbn [tstep] in H; step_cases H; try discriminate Ht.
  - injection Ht as -> -> ->. auto.
  - injection Ht as -> -> ->. right. repeat eexists; eauto.
Qed.

Lemma get_env_tree st src q : get_env src q st = match st_index st !! src with None => Some [] | Some g => get_tree q (sg_tree g) end.
Proof. Transparent get_tree. unfold get_env, get_tree. by destruct (st_index st !! src). Opaque get_tree. Qed.

Lemma get_tree_new q : get_tree q avl_new = Some [].
Proof. Transparent get_tree. unfold get_tree. cbn. by destruct (q_desc q). Opaque get_tree. Qed.

Lemma get_env_abs st src q : get_env src q st = get_tree q (sg_tree (abs st src)).
Proof.
  rewrite get_env_tree. unfold abs. destruct (st_index st !! src); [done|]. cbn [default empty_sg sg_tree]. by rewrite get_tree_new.
Qed.

(** A step that neither returns from a Put nor makes room nor adds a storage leaves every content alone *)
Lemma quiet tid ch s th s' th' a sg' : tstep tid ch s th = Some (s', th') -> truncating th = false ->
  (∀ e src, th ≠ PMiss e src) -> (∀ e src, th' ≠ PDone e src) -> (∀ e src b, th' ≠ PRoom e src b) ->
  sh_heap s' !! a = Some sg' -> ∃ sg, sh_heap s !! a = Some sg ∧ cs_tree sg' = cs_tree sg ∧ cs_meta sg' = cs_meta sg.
Proof.
  intros H Hnt Hm Hd Hr Ha. destruct th; try discriminate Hnt; cbn [tstep] in H; step_cases H.
  all: try match goal with E : lock _ _ = Some _ |- _ => apply lock_Some in E as (? & ? & ->) end.
  all: try match goal with E : rlock _ _ = Some _ |- _ => apply rlock_Some in E as (? & ->) end.
  all: try (by destruct (Hm e src)); try (by destruct (Hd e src)); try (by destruct (Hr e src a0)).
  all: try (exists sg'; split; [exact Ha|done]).
  all: cbn [sh_heap set_heap] in Ha; apply lookup_insert_Some in Ha as [[<- <-]|[_ Ha]]; eauto.
Qed.

Lemma room_done m tid ch s e src a s' th' ths : trees m s ths -> tstep tid ch s (PRoom e src a) = Some (s', th') -> th' = PDone e src.
Proof.
  intros HT H. cbn [tstep] in H. step_cases H; [done|]. exfalso.
  destruct (put_tree e (cs_tree x)) as (t2 & k2 & v2 & l2 & E1 & E2 & E3 & E4 & E5); [by eapply (tr_ok _ _ _ HT)|].
  rewrite E1 in E. cbn [mbind option_bind] in E. rewrite E4 in E. done.
Qed.

Lemma enter_miss tid ch s th s' th' e src : tstep tid ch s th = Some (s', th') -> th' = PMiss e src -> sh_index s !! src = None.
Proof. intros H Ht. destruct th; cbn [tstep] in H; step_cases H; try discriminate Ht. by injection Ht as -> ->. Qed.
Lemma is_done th : (∃ e src, th = PDone e src) ∨ ¬ ∃ e src, th = PDone e src.
Proof. destruct th; first [left; by eauto|right; by intros (? & ? & ?)]. Qed.
Lemma is_room th : (∃ e src a, th = PRoom e src a) ∨ ¬ ∃ e src a, th = PRoom e src a.
Proof. destruct th; first [left; by eauto|right; by intros (? & ? & ? & ?)]. Qed.

Lemma lin_step m tid ch s th s' th' ths st : 1 <= m -> locks s ths -> trees m s ths -> lin m s ths st -> ths !! tid = Some th ->
  tstep tid ch s th = Some (s', th') ->
  ∃ st', run st (ret th') = Some st' ∧ lin m s' (<[tid:=th']> ths) st' ∧
    (∀ src q res, th' = GDone src q res -> get_env src q st = Some res).
Proof.
  intros Hm HL HT HN Ht H.
  pose proof (ln_nt _ _ _ _ HN _ _ Ht) as Hnt.
  pose proof (tstep_nt _ _ _ _ _ _ H Hnt) as Hnt'.
  (* the sequential step *)
  assert (Hrun : ∃ st', run st (ret th') = Some st' ∧
    (match th' with
     | PDone e src => ∃ a sg t oldest v, th = PRoom e src a ∧ sh_heap s !! a = Some sg ∧ sh_index s' = sh_index s ∧
         sh_heap s' = <[a := mk_cs t (mk_meta (m_count (cs_meta sg)) (m_expired (cs_meta sg)) oldest v) None (cs_readers sg)]> (sh_heap s) ∧
         st_index st' = <[src := mk_storage (mk_meta (m_count (cs_meta sg)) (m_expired (cs_meta sg)) oldest v) t]> (st_index st)
     | _ => st_index st' = st_index st
     end) ∧
    (∀ src q res, th' = GDone src q res -> get_env src q st = Some res)).
  { destruct th' eqn:Eth; cbn [ret run]; try (eexists; split; [reflexivity|]; split; [done|intros; discriminate]).
    - destruct (done_put _ _ _ _ _ _ _ _ H eq_refl) as (a & sg & t & oldest & v & -> & Ha & Hp & Hl & Ei & Eh).
      destruct (put_abs m st e src sg t oldest v Hm (ln_inv _ _ _ _ HN) (ln_max _ _ _ _ HN) (ln_fudge _ _ _ _ HN)
        (ln_room _ _ _ _ HN _ _ _ _ _ Ht Ha) Hp Hl) as (st' & Hst & Hidx).
      exists st'. cbn [step]. rewrite Hst. split; [done|]. split; [|intros; discriminate].
      repeat eexists; eauto.
    - assert (Hget : get_env src q st = Some res).
      { destruct (done_get _ _ _ _ _ _ _ _ _ H eq_refl) as [(-> & Hn & -> & ->)|(a & t0 & sg & -> & Ha & Hg & Ei & Eh)].
        - rewrite get_env_tree, (ln_none _ _ _ _ HN _ Hn). done.
        - rewrite get_env_abs.
          assert (Hsame : same (abs st src) sg).
          { eapply (ln_eq _ _ _ _ HN); [by eapply (ln_own _ _ _ _ HN); eauto|done|].
            intros tid2 e H2. 
            pose proof (lk_w _ _ HL _ _ _ _ H2 eq_refl Ha) as W. pose proof (lk_r _ _ HL _ _ _ _ Ht eq_refl Ha) as R.
            rewrite (lk_x _ _ HL _ _ Ha) in R by congruence. set_solver. }
          destruct Hsame as [<- _]. done. }
      cbn [step]. rewrite Hget. cbn [mbind option_bind]. eexists. split; [reflexivity|]. split; [done|]. intros ? ? ? [= -> -> ->]. done. }
  destruct Hrun as (st' & Hrun & Hidx & Hres). exists st'. split; [done|]. split; [|done].
  destruct (run_inv _ _ _ (ln_inv _ _ _ _ HN) Hrun) as [Hi' Hmx'].
  assert (Hf' : st_fudge st' = 4000).
  { rewrite <-(ln_fudge _ _ _ _ HN). destruct th'; cbn [ret run] in Hrun; try (injection Hrun as <-; done).
    - apply bind_Some in Hrun as (x & Hx & Hrun). injection Hrun as <-. cbn [step] in Hx.
      destruct (put_env_spec e src 0 st) as (f & sg' & _ & _ & _ & _ & _ & _ & _ & _ & E).
      { rewrite (ln_max _ _ _ _ HN); done. } { intros. by eapply (inv_tree st (ln_inv _ _ _ _ HN)). }
      rewrite E in Hx. injection Hx as <-. done.
    - apply bind_Some in Hrun as (x & Hx & Hrun). injection Hrun as <-. cbn [step] in Hx.
      apply bind_Some in Hx as (y & _ & Hx). injection Hx as <-. done. }
  destruct (tstep_index _ _ _ _ _ _ H) as [Ei|[(e0 & src0 & -> & Ei & Hn0)|(? & ? & ? & ? & -> & _)]]; [| |discriminate Hnt].
  2: { (* a new storage *)
    cbn [tstep] in H. injection H as Es Eth. assert (Eh : sh_heap s' = <[sh_next s := mk_cs avl_new meta_zero None ∅]> (sh_heap s)) by (by rewrite <-Es).
    clear Es. subst th'. cbn [ret run] in Hrun. injection Hrun as <-.
    assert (Hfr : ∀ src, sh_index s !! src ≠ Some (sh_next s)).
    { intros src Hx. destruct (lk_index _ _ HL _ _ Hx) as [y Hy]. pose proof (lk_fresh _ _ HL _ _ Hy). lia. }
    assert (Hin0 : sh_index s !! src0 = None) by (by eapply (ln_miss _ _ _ _ HN)).
    assert (Hnr : ∀ tid2 e src a, <[tid:=PWait e0 src0 (sh_next s)]> ths !! tid2 = Some (PRoom e src a) -> ths !! tid2 = Some (PRoom e src a)).
    { intros tid2 e src a H2. by apply insert_Some in H2 as [[_ ?]|[_ H2]]. }
    split; auto.
    - apply (ln_max _ _ _ _ HN).
    - intros tid2 th2 H2. apply insert_Some in H2 as [[<- <-]|[Hne H2]]; [done|]. by eapply (ln_nt _ _ _ _ HN).
    - intros src Hx. rewrite Ei in Hx. apply lookup_insert_None in Hx as [Hx _]. by apply (ln_none _ _ _ _ HN).
    - intros tid2 e src H2. apply insert_Some in H2 as [[_ ?]|[Hne H2]]; [done|]. exfalso.
      pose proof (lk_i _ _ HL _ _ H2 eq_refl). pose proof (lk_i _ _ HL _ _ Ht eq_refl). congruence.
    - intros s1 s2 a. rewrite Ei. intros H1 H2.
      apply lookup_insert_Some in H1 as [[<- <-]|[_ H1]]; apply lookup_insert_Some in H2 as [[<- Ex]|[_ H2]]; try done.
      + by destruct (Hfr s2).
      + subst a. by destruct (Hfr s1).
      + by eapply (ln_inj _ _ _ _ HN).
    - intros tid2 th2 src a H2 Ho. rewrite Ei. apply insert_Some in H2 as [[<- <-]|[Hne H2]].
      + cbn in Ho. injection Ho as <- <-. by rewrite lookup_insert.
      + pose proof (ln_own _ _ _ _ HN _ _ _ _ H2 Ho). rewrite lookup_insert_ne; [done|congruence].
    - intros src a sg Hi Ha Hno. rewrite Ei in Hi. rewrite Eh in Ha.
      apply lookup_insert_Some in Hi as [[<- <-]|[Hne Hi]].
      + rewrite lookup_insert in Ha. injection Ha as <-. unfold abs. rewrite (ln_none _ _ _ _ HN _ Hin0). done.
      + rewrite lookup_insert_ne in Ha by (intros E; apply (Hfr src); by rewrite E).
        eapply (ln_eq _ _ _ _ HN); eauto. intros tid2 e H2. destruct (decide (tid2 = tid)) as [->|Hne2]; [congruence|].
        apply (Hno tid2 e). rewrite list_lookup_insert_ne by done. done.
    - intros tid2 e src a sg H2 Ha. apply Hnr in H2.
      rewrite Eh in Ha. pose proof (ln_own _ _ _ _ HN _ _ _ _ H2 eq_refl) as Ho.
      rewrite lookup_insert_ne in Ha by (intros E; apply (Hfr src); by rewrite E).
      by eapply (ln_room _ _ _ _ HN). }
  (* the index is unchanged *)
  assert (Hnm : ∀ e src, th ≠ PMiss e src).
  { intros e src ->. cbn [tstep] in H. injection H as <- _. cbn in Ei. apply (f_equal (lookup src)) in Ei.
    rewrite lookup_insert in Ei. symmetry in Ei. destruct (lk_index _ _ HL _ _ Ei) as [y Hy].
    pose proof (lk_fresh _ _ HL _ _ Hy). lia. }
  assert (Hown : ∀ tid2 th2 src a, <[tid:=th']> ths !! tid2 = Some th2 -> own th2 = Some (src, a) -> sh_index s' !! src = Some a).
  { intros tid2 th2 src a H2 Ho. rewrite Ei. apply insert_Some in H2 as [[<- <-]|[Hne H2]]; [|by eapply (ln_own _ _ _ _ HN)].
    destruct (tstep_own _ _ _ _ _ _ _ _ H Ho) as [Hx|[Hx|(e & Hx & _)]]; [by eapply (ln_own _ _ _ _ HN)|done|by destruct (Hnm e src)]. }
  assert (Hmiss : ∀ tid2 e src, <[tid:=th']> ths !! tid2 = Some (PMiss e src) -> sh_index s' !! src = None).
  { intros tid2 e src H2. rewrite Ei. apply insert_Some in H2 as [[<- Eth]|[Hne H2]]; [|by eapply (ln_miss _ _ _ _ HN)].
    by eapply enter_miss. }
  assert (Hnt2 : ∀ tid2 th2, <[tid:=th']> ths !! tid2 = Some th2 -> truncating th2 = false).
  { intros tid2 th2 H2. apply insert_Some in H2 as [[<- <-]|[Hne H2]]; [done|]. by eapply (ln_nt _ _ _ _ HN). }
  (* only one call at a time is between making room and inserting *)
  assert (Halone : ∀ tid2 e src a sg, ths !! tid2 = Some (PRoom e src a) -> sh_heap s !! a = Some sg -> holds_w th = Some a -> tid2 = tid).
  { intros tid2 e src a sg H2 Ha Hw. pose proof (lk_w _ _ HL _ _ _ _ H2 eq_refl Ha). pose proof (lk_w _ _ HL _ _ _ _ Ht Hw Ha). congruence. }
  destruct (is_done th') as [(e & src & ->)|Hnd]; [|].
  - (* the Put returns *)
    destruct Hidx as (a & sg & t & oldest & v & -> & Ha & _ & Eh & Est).
    pose proof (ln_own _ _ _ _ HN _ _ _ _ Ht eq_refl) as Hia.
    split; auto; try (rewrite Ei; apply HN).
    + by rewrite Hmx', (ln_max _ _ _ _ HN).
    + intros x Hx. rewrite Ei in Hx. rewrite Est. rewrite lookup_insert_ne by congruence. by apply (ln_none _ _ _ _ HN).
    + intros x b sg0 Hi Hb Hno. rewrite Ei in Hi. rewrite Eh in Hb. apply lookup_insert_Some in Hb as [[<- <-]|[Hne Hb]].
      * assert (x = src) as -> by (by eapply (ln_inj _ _ _ _ HN)). unfold abs. rewrite Est, lookup_insert. done.
      * assert (x ≠ src) by congruence. unfold abs. rewrite Est, lookup_insert_ne by done. fold (abs st x).
        eapply (ln_eq _ _ _ _ HN); eauto. intros tid2 e2 H2. destruct (decide (tid2 = tid)) as [->|Hne2]; [congruence|].
        apply (Hno tid2 e2). rewrite list_lookup_insert_ne by done. done.
    + intros tid2 e2 x b sg0 H2 Hb. apply insert_Some in H2 as [[_ ?]|[Hne H2]]; [done|].
      rewrite Eh in Hb. apply lookup_insert_Some in Hb as [[<- _]|[Hne2 Hb]].
      * exfalso. apply Hne. symmetry. by eapply Halone.
      * pose proof (ln_own _ _ _ _ HN _ _ _ _ H2 eq_refl) as Hib.
        assert (x ≠ src) by congruence. unfold abs. rewrite Est, lookup_insert_ne by done. fold (abs st x).
        by eapply (ln_room _ _ _ _ HN).
  - assert (Est : st_index st' = st_index st).
    { destruct th'; try exact Hidx. exfalso. apply Hnd. eauto. }
    assert (Habs : ∀ x, abs st' x = abs st x) by (intros; by apply abs_same).
    assert (Hnr : ∀ e src a, th ≠ PRoom e src a).
    { intros e src a ->. apply Hnd. exists e, src. by eapply room_done. }
    assert (Hold : ∀ x a sg, sh_index s !! x = Some a -> sh_heap s !! a = Some sg ->
              (∀ tid2 e, <[tid:=th']> ths !! tid2 ≠ Some (PRoom e x a)) -> same (abs st' x) sg).
    { intros x a sg Hi Ha Hno. rewrite Habs. eapply (ln_eq _ _ _ _ HN); eauto. intros tid2 e2 H2.
      destruct (decide (tid2 = tid)) as [->|Hne2]; [by destruct (Hnr e2 x a); congruence|].
      apply (Hno tid2 e2). rewrite list_lookup_insert_ne by done. done. }
    destruct (is_room th') as [(e & src & a & ->)|Hnroom].
    + (* room is made *)
      destruct (enter_room _ _ _ _ _ _ _ _ _ H eq_refl) as (-> & sg & Ha & Hcase).
      pose proof (ln_own _ _ _ _ HN _ _ _ _ Ht eq_refl) as Hia.
      assert (Hsame : same (abs st src) sg).
      { eapply (ln_eq _ _ _ _ HN); eauto. intros tid2 e2 H2. pose proof (Halone _ _ _ _ _ H2 Ha eq_refl) as ->. congruence. }
      assert (Hother : ∀ b sg', b ≠ a -> sh_heap s' !! b = Some sg' -> sh_heap s !! b = Some sg').
      { intros b sg' Hne Hb. destruct Hcase as [[_ Eh]|(_ & sg2 & Eh & _)]; rewrite Eh in Hb; [done|].
        by rewrite lookup_insert_ne in Hb by done. }
      split; auto; try (rewrite Ei; apply HN).
      * by rewrite Hmx', (ln_max _ _ _ _ HN).
      * intros x Hx. rewrite Ei in Hx. rewrite Est. by apply (ln_none _ _ _ _ HN).
      * intros x b sg0 Hi Hb Hno. rewrite Ei in Hi. destruct (decide (b = a)) as [->|Hne].
        -- exfalso. assert (x = src) as -> by (by eapply (ln_inj _ _ _ _ HN)). apply (Hno tid e).
           apply list_lookup_insert. by eapply lookup_lt_Some.
        -- eapply Hold; eauto.
      * intros tid2 e2 x b sg0 H2 Hb. apply insert_Some in H2 as [[<- Eth]|[Hne H2]].
        -- injection Eth as <- <- <-. rewrite Habs. unfold after_evict. destruct Hsame as [Hs1 Hs2]. rewrite <-Hs1.
           destruct Hcase as [[Hlt Eh]|(Hge & sg2 & Eh & Er & Em)]; rewrite Eh in Hb.
           ++ rewrite (tr_max _ _ _ HT) in Hlt. destruct (Z.leb_spec m (av_size (cs_tree sg))); [lia|].
              assert (sg0 = sg) as -> by congruence. by split.
           ++ rewrite (tr_max _ _ _ HT) in Hge. destruct (Z.leb_spec m (av_size (cs_tree sg))); [|lia].
              rewrite lookup_insert in Hb. injection Hb as <-. split; [done|]. rewrite Em, Hs2. done.
        -- destruct (decide (b = a)) as [->|Hnb].
           ++ exfalso. apply Hne. symmetry. by eapply Halone.
           ++ rewrite Habs. eapply (ln_room _ _ _ _ HN); eauto.
    + (* nothing changes *)
      assert (Hq : ∀ b sg', sh_heap s' !! b = Some sg' -> ∃ sg, sh_heap s !! b = Some sg ∧ cs_tree sg' = cs_tree sg ∧ cs_meta sg' = cs_meta sg).
      { intros b sg' Hb. eapply quiet; eauto; intros; intros ->; eauto. }
      split; auto; try (rewrite Ei; apply HN).
      * by rewrite Hmx', (ln_max _ _ _ _ HN).
      * intros x Hx. rewrite Ei in Hx. rewrite Est. by apply (ln_none _ _ _ _ HN).
      * intros x b sg0 Hi Hb Hno. rewrite Ei in Hi. destruct (Hq _ _ Hb) as (sg & Hb' & E1 & E2).
        unfold same. rewrite E1, E2. eapply Hold; eauto.
      * intros tid2 e2 x b sg0 H2 Hb. apply insert_Some in H2 as [[<- ->]|[Hne H2]]; [by destruct Hnroom; eauto|].
        destruct (Hq _ _ Hb) as (sg & Hb' & E1 & E2). rewrite Habs.
        pose proof (ln_room _ _ _ _ HN _ _ _ _ _ H2 Hb') as Hr. unfold after_evict, same in *. by rewrite E1, E2.
Qed.

Lemma returned_ret tid ch c th s' th' : cf_threads c !! tid = Some th ->
  returned_by (LStep tid ch) (mk_cfg s' (<[tid:=th']> (cf_threads c))) = ret th'.
Proof.
  intros Ht. unfold returned_by. cbn [cf_threads]. rewrite list_lookup_insert by (by eapply lookup_lt_Some). done.
Qed.

Lemma truncation_free_snoc ls l : truncation_free (ls ++ [l]) -> truncation_free ls ∧ l ≠ LCall CTruncate.
Proof. unfold truncation_free. rewrite elem_of_app, elem_of_list_singleton. naive_solver. Qed.

Lemma lin_call m s ths st c : c ≠ CTruncate -> lin m s ths st -> lin m s (ths ++ [start_of c]) st.
Proof.
  intros Hc HN. destruct HN. split; auto.
  - intros tid th H. apply lookup_app_Some in H as [H|[_ H]]; [eauto|]. apply list_lookup_singleton_Some in H as [_ <-]. by destruct c.
  - intros tid e src H. apply lookup_app_Some in H as [H|[_ H]]; [eauto|]. apply list_lookup_singleton_Some in H as [_ H]. by destruct c.
  - intros tid th src a H Ho. apply lookup_app_Some in H as [H|[_ H]]; [eauto|]. apply list_lookup_singleton_Some in H as [_ <-]. by destruct c.
  - intros src a sg Hi Ha Hno. eapply ln_eq0; eauto. intros tid e H. apply (Hno tid e). by apply lookup_app_l_Some.
  - intros tid e src a sg H Ha. apply lookup_app_Some in H as [H|[_ H]]; [eauto|]. apply list_lookup_singleton_Some in H as [_ H]. by destruct c.
Qed.

Theorem lin_reach m ls c : 1 <= m -> crun (initial m) ls = Some c -> truncation_free ls ->
  ∃ st, run (new_store m) (returns (initial m) ls) = Some st ∧ lin m (cf_sh c) (cf_threads c) st.
Proof.
  intros Hm. revert c. induction ls as [|l ls IH] using rev_ind; intros c H Hf.
  { injection H as <-. exists (new_store m). split; [done|]. by apply lin_initial. }
  apply crun_snoc in H as (c1 & H1 & H2). apply truncation_free_snoc in Hf as [Hf Hl].
  destruct (IH c1 H1 Hf) as (st & Hr & HN). destruct (trees_reach m ls c1 Hm H1) as [HL HT].
  rewrite (returns_snoc _ _ _ _ _ H1 H2).
  apply cstep_cases in H2 as [(x & -> & ->)|(tid & ch & th & s' & th' & -> & Ht & Hs & ->)].
  - exists st. cbn [returned_by]. rewrite app_nil_r. split; [done|]. cbn. apply lin_call; [congruence|done].
  - destruct (lin_step m tid ch _ _ _ _ _ _ Hm HL HT HN Ht Hs) as (st' & Hr' & HN' & _).
    exists st'. erewrite returned_ret by exact Ht. rewrite run_app, Hr. cbn [mbind option_bind]. split; [done|]. done.
Qed.

Theorem get_linear m ls tid ch c src q res : 1 <= m -> truncation_free ls ->
  crun (initial m) (ls ++ [LStep tid ch]) = Some c -> cf_threads c !! tid = Some (GDone src q res) ->
  ∃ st, run (new_store m) (returns (initial m) ls) = Some st ∧ get_env src q st = Some res.
Proof.
  intros Hm Hf H Hd. apply crun_snoc in H as (c1 & H1 & H2).
  destruct (lin_reach m ls c1 Hm H1 Hf) as (st & Hr & HN). destruct (trees_reach m ls c1 Hm H1) as [HL HT].
  exists st. split; [done|].
  apply cstep_cases in H2 as [(x & ? & _)|(tid' & ch' & th & s' & th' & [= <- <-] & Ht & Hs & ->)]; [done|].
  destruct (lin_step m tid ch _ _ _ _ _ _ Hm HL HT HN Ht Hs) as (st' & Hr' & HN' & Hg).
  cbn [cf_threads] in Hd. rewrite list_lookup_insert in Hd by (by eapply lookup_lt_Some). injection Hd as ->. by apply Hg.
Qed.

Theorem visible_linear m ls c : 1 <= m -> truncation_free ls -> crun (initial m) ls = Some c ->
  ∃ st, run (new_store m) (returns (initial m) ls) = Some st ∧
    ∀ src, settled c src ->
      visible_to c src = (stored st src).*2 ∧
      visible_expired c src = match meta st !! src with Some mi => m_expired mi | None => 0 end.
Proof.
  intros Hm Hf H. destruct (lin_reach m ls c Hm H Hf) as (st & Hr & HN). exists st. split; [done|].
  intros src Hq. destruct (trees_reach m ls c Hm H) as [HL HT].
  unfold visible_to, visible_expired, stored, meta. rewrite lookup_fmap.
  destruct (sh_index (cf_sh c) !! src) as [a|] eqn:Ei.
  - destruct (lk_index _ _ HL _ _ Ei) as [sg Ha]. rewrite Ha.
    assert (Hs : same (abs st src) sg).
    { eapply (ln_eq _ _ _ _ HN); eauto. intros tid e H2. apply elem_of_list_lookup_2 in H2.
      pose proof (Hq _ H2) as Hx. cbn in Hx. by rewrite bool_decide_true in Hx. }
    destruct Hs as [Hs1 Hs2]. unfold held. rewrite Hs1, Hs2. unfold abs.
    by destruct (st_index st !! src) as [g|] eqn:Est.
  - rewrite (ln_none _ _ _ _ HN _ Ei). done.
Qed.

(** ** No panic without truncation *)
Lemma visit_known types nf limit res e : (∀ ts t, types = Some ts -> t ∈ ts -> ∀ n, t ≠ T_UNKNOWN n) -> is_Some (visit types nf limit res e).
Proof.
  intros Hk. unfold visit. destruct (filter_by_name nf e) as [e'|]; [|by eauto].
  assert (Hv : is_Some (valid_type e' types)).
  { unfold valid_type. destruct types as [ts|]; [|by eauto].
    assert (Hk' : ∀ t, t ∈ ts -> ∀ n, t ≠ T_UNKNOWN n) by (intros; eauto). clear Hk.
    induction ts as [|t ts IH]; cbn [valid_type_list]; [by eauto|].
    assert (Hc : is_Some (check_type e' t)).
    { destruct t; cbn; eauto. exfalso. by eapply (Hk' (T_UNKNOWN n)); [constructor|]. }
    destruct Hc as [b ->]. cbn [mbind option_bind]. destruct b; [by eauto|]. apply IH. intros t' Ht'. apply Hk'. by constructor. }
  destruct Hv as [b ->]. cbn. eauto.
Qed.

Lemma tree_asc_known start stop f t : (∀ r e, is_Some (f r e)) -> ∀ r, is_Some (tree_asc start stop f t r).
Proof.
  intros Hf. induction t as [|b k e l IHl r IHr]; intros res; cbn [tree_asc]; [by eauto|].
  destruct (start <=? e_ts e); [|done]. destruct (IHl res) as [[r1 b1] ->]. cbn [mbind option_bind].
  destruct b1; [by eauto|].
  assert (H2 : is_Some (if stop <=? e_ts e then Some (r1, true) else f r1 e)) by (destruct (stop <=? e_ts e); [by eauto|apply Hf]).
  destruct H2 as [[r2 b2] ->]. cbn [mbind option_bind]. destruct (_ && _); [by eauto|]. apply IHr.
Qed.
Lemma tree_desc_known start stop f t : (∀ r e, is_Some (f r e)) -> ∀ r, is_Some (tree_desc start stop f t r).
Proof.
  intros Hf. induction t as [|b k e l IHl r IHr]; intros res; cbn [tree_desc]; [by eauto|].
  destruct (e_ts e <? stop); [|done]. destruct (IHr res) as [[r1 b1] ->]. cbn [mbind option_bind].
  destruct b1; [by eauto|].
  assert (H2 : is_Some (if e_ts e <? start then Some (r1, true) else f r1 e)) by (destruct (e_ts e <? start); [by eauto|apply Hf]).
  destruct H2 as [[r2 b2] ->]. cbn [mbind option_bind]. destruct (_ && _); [by eauto|]. apply IHl.
Qed.
Definition q_known (q : query) : Prop := ∀ ts t, q_types q = Some ts -> t ∈ ts -> ∀ n, t ≠ T_UNKNOWN n.
Lemma get_tree_known q t : q_known q -> is_Some (get_tree q t).
Proof.
  intros Hk. Transparent get_tree. unfold get_tree. Opaque get_tree.
  set (f := visit (q_types q) (q_name q) (q_limit q)).
  assert (Hf : ∀ r e, is_Some (f r e)) by (intros; by apply visit_known).
  destruct (q_desc q).
  - destruct (tree_desc_known (q_start q) (q_end q) f (av_root t) Hf []) as [[r b] ->]. cbn. eauto.
  - destruct (tree_asc_known (q_start q) (q_end q) f (av_root t) Hf []) as [[r b] ->]. cbn. eauto.
Qed.

Definition get_query (th : thread) : option query :=
  match th with GStart _ q | GWait _ q _ | GIn _ q _ _ => Some q | _ => None end.
(** the keys Meta will look up a second time *)
Definition keys_of (th : thread) : list string :=
  match th with
  | MRange _ _ rep | MRead _ _ rep _ _ => (map_to_list rep).*1
  | MFill todo _ | MSize todo _ _ _ => todo
  | _ => []
  end.
Definition key_at (th : thread) : list string := match th with MRead _ _ _ k _ => [k] | _ => [] end.

Record calm (s : shared) (ths : list thread) : Prop := {
  cm_panic : ∀ tid, ths !! tid ≠ Some Panicked;
  cm_query : ∀ tid th q, ths !! tid = Some th -> get_query th = Some q -> q_known q;
  cm_keys : ∀ tid th k, ths !! tid = Some th -> k ∈ keys_of th ++ key_at th -> is_Some (sh_index s !! k)
}.

Lemma tstep_query tid ch s th s' th' q : tstep tid ch s th = Some (s', th') -> get_query th' = Some q -> get_query th = Some q.
Proof. intros H Hq. destruct th; cbn [tstep] in H; step_cases H; cbn in *; try discriminate; done. Qed.

Lemma key_order_in ord rep k : k ∈ key_order ord rep -> is_Some (rep !! k).
Proof.
  unfold key_order. rewrite elem_of_app, !elem_of_list_filter. intros [[H _]|[_ H]]; [done|].
  apply elem_of_list_fmap in H as ([k' v] & -> & H). apply elem_of_map_to_list in H. eauto.
Qed.

Lemma tstep_keys tid ch s th s' th' k : tstep tid ch s th = Some (s', th') -> k ∈ keys_of th' ++ key_at th' ->
  k ∈ keys_of th ++ key_at th ∨ is_Some (sh_index s !! k).
Proof.
  intros H Hk. destruct th; cbn [tstep] in H; step_cases H; cbn [keys_of key_at] in *; rewrite ?app_nil_r in *; auto;
    try (by inversion Hk).
  - rewrite elem_of_app, elem_of_list_singleton in Hk. destruct Hk as [Hk| ->]; [by left|]. right. eauto.
  - left. apply key_order_in in Hk as [v Hv]. apply elem_of_list_fmap. exists (k, v). split; [done|]. by apply elem_of_map_to_list.
  - left. apply elem_of_list_fmap in Hk as ([k' v] & -> & Hk). apply elem_of_map_to_list in Hk. cbn.
    apply lookup_insert_Some in Hk as [[-> _]|[_ Hk]]; [rewrite elem_of_app, elem_of_list_singleton; by right|].
    rewrite elem_of_app. left. apply elem_of_list_fmap. exists (k', v). split; [done|]. by apply elem_of_map_to_list.
  - left. by constructor.
Qed.

Lemma calm_step m tid ch s th s' th' ths : locks s ths -> trees m s ths -> calm s ths -> truncating th = false -> ths !! tid = Some th ->
  1 <= m -> tstep tid ch s th = Some (s', th') -> calm s' (<[tid:=th']> ths).
Proof.
  intros HL HT HC Hnt Ht Hm H. split.
  - intros tid2 H2. apply insert_Some in H2 as [[<- Eth]|[_ H2]]; [|by eapply (cm_panic _ _ HC)].
    assert (Hd : th' = Panicked) by done. clear Eth. destruct th; try discriminate Hnt; cbn [tstep] in H; step_cases H; try discriminate Hd.
    + (* eviction *)
      match goal with E : mbind _ (avl_left _) = None |- _ => apply left_remove_panic in E as E1'; [|by eapply (tr_ok _ _ _ HT)] end.
      destruct (tr_ok _ _ _ HT _ _ H0) as [Hok _]. apply avl_size in Hok. rewrite E1' in Hok. cbn in Hok.
      rewrite (tr_max _ _ _ HT) in E. lia.
    + destruct (put_tree e (cs_tree x)) as (t2 & k2 & v2 & l2 & E1 & E2 & E3 & E4 & E5); [by eapply (tr_ok _ _ _ HT)|].
      rewrite E1 in E. cbn [mbind option_bind] in E. by rewrite E4 in E.
    + destruct (get_tree_known q (cs_tree x)) as [r Hr]; [|congruence]. by eapply (cm_query _ _ HC).
    + destruct (cm_keys _ _ HC _ _ s0 Ht) as [v Hv]; [cbn; constructor|]. congruence.
  - intros tid2 th2 q H2 Hq. apply insert_Some in H2 as [[<- <-]|[_ H2]]; [|by eapply (cm_query _ _ HC)].
    eapply (cm_query _ _ HC); [exact Ht|]. by eapply tstep_query.
  - intros tid2 th2 k H2 Hk.
    assert (Hold : is_Some (sh_index s !! k)).
    { apply insert_Some in H2 as [[<- <-]|[_ H2]]; [|by eapply (cm_keys _ _ HC)].
      destruct (tstep_keys _ _ _ _ _ _ _ H Hk) as [Hx|Hx]; [|done]. by eapply (cm_keys _ _ HC). }
    destruct (tstep_index _ _ _ _ _ _ H) as [Ei|[(e0 & src0 & _ & Ei & _)|(? & ? & ? & ? & -> & _)]]; [by rewrite Ei| |discriminate Hnt].
    rewrite Ei. apply lookup_insert_is_Some'. auto.
Qed.

Theorem no_crash m ls c : 1 <= m -> truncation_free ls -> known_types ls -> crun (initial m) ls = Some c -> ¬ crashed c.
Proof.
  intros Hm Hf Hk H.
  assert (HC : calm (cf_sh c) (cf_threads c) ∧ ∀ tid th, cf_threads c !! tid = Some th -> truncating th = false).
  { revert c H. induction ls as [|l ls IH] using rev_ind; intros c H.
    { injection H as <-. split; [split|]; cbn; intros *; rewrite ?lookup_nil; done. }
    apply crun_snoc in H as (c1 & H1 & H2). apply truncation_free_snoc in Hf as [Hf Hl].
    assert (Hk1 : known_types ls).
    { intros src q ts t Hin. apply Hk with src. apply elem_of_app. by left. }
    destruct (IH Hf Hk1 c1 H1) as [HC HN]. destruct (trees_reach m ls c1 Hm H1) as [HL HT].
    apply cstep_cases in H2 as [(x & -> & ->)|(tid & ch & th & s' & th' & -> & Ht & Hs & ->)]; cbn [cf_sh cf_threads].
    - split.
      + split.
        * intros tid H. apply lookup_app_Some in H as [H|[_ H]]; [by eapply (cm_panic _ _ HC)|].
          apply list_lookup_singleton_Some in H as [_ H]. by destruct x.
        * intros tid th q H Hq. apply lookup_app_Some in H as [H|[_ H]]; [by eapply (cm_query _ _ HC)|].
          apply list_lookup_singleton_Some in H as [_ <-]. destruct x; try discriminate Hq. cbn in Hq. injection Hq as ->.
          intros ts t. apply Hk with src. apply elem_of_app. right. by constructor.
        * intros tid th k H Hq. apply lookup_app_Some in H as [H|[_ H]]; [by eapply (cm_keys _ _ HC)|].
          apply list_lookup_singleton_Some in H as [_ <-]. destruct x; by inversion Hq.
      + intros tid th H. apply lookup_app_Some in H as [H|[_ H]]; [by eapply HN|].
        apply list_lookup_singleton_Some in H as [_ <-]. by destruct x.
    - split; [by eapply calm_step; eauto|]. intros tid2 th2 H2. apply insert_Some in H2 as [[<- <-]|[_ H2]]; [|by eauto].
      eapply tstep_nt; eauto. }
  intros Hp. apply elem_of_list_lookup in Hp as [tid Hp]. by eapply (cm_panic _ _ (proj1 HC)).
Qed.
