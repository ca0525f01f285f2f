(** What a source was sent is what it shows plus what its expired count says, also when truncations run. *)
From stdpp Require Import prelude gmap strings.
From Coq Require Import ZifyBool ZifyNat.
From Verif.Base Require Import GoInt Envelope.
From Verif.Store Require Import Avl AvlProofs GoHeap GoHeapProofs Model Spec ProofsBase.
From Verif.StoreConc Require Import Model Spec ProofsLock ProofsTree ProofsLin ProofsAcct ProofsOrderly SpecStays.
Open Scope Z_scope.
#[local] Opaque find_fudge avl_put avl_remove avl_left get_tree lookup insert heap_pop heap_push.

Definition refs (th : thread) : list (string * nat) := match at_put th with Some p => [p] | None => [] end ++ ents th.
Notation exp_of sg := (m_expired (cs_meta sg)).

Inductive books (s : shared) (th : thread) (s' : shared) (th' : thread) : Prop :=
| bk_same : (∀ a sg, sh_heap s !! a = Some sg -> ∃ sg', sh_heap s' !! a = Some sg' ∧ held sg' = held sg ∧ exp_of sg' = exp_of sg) ->
    (∀ src, put_done_to src th' = put_done_to src th) -> sh_index s' = sh_index s -> books s th s' th'
| bk_new e src : th = PMiss e src -> (∀ x, put_done_to x th' = []) ->
    sh_index s' = <[src := sh_next s]> (sh_index s) -> sh_heap s' = <[sh_next s := mk_cs avl_new meta_zero None ∅]> (sh_heap s) -> books s th s' th'
| bk_take src a sg sg' k x l : (src, a) ∈ refs th -> sh_heap s !! a = Some sg -> sh_heap s' = <[a := sg']> (sh_heap s) ->
    held sg = (k, x) :: l -> held sg' = l -> exp_of sg' = exp_of sg + 1 ->
    (∀ y, put_done_to y th' = put_done_to y th) -> sh_index s' = sh_index s -> books s th s' th'
| bk_put e src a sg sg' f : th = PRoom e src a -> th' = PDone e src -> sh_heap s !! a = Some sg -> sh_heap s' = <[a := sg']> (sh_heap s) ->
    0 <= f <= 4000 -> (∀ i, 0 <= i < f -> wrap64 (e_ts e + i) ∈ (held sg).*1) -> (f < 4000 -> wrap64 (e_ts e + f) ∉ (held sg).*1) ->
    held sg' = linsert (wrap64 (e_ts e + f)) e (held sg) -> exp_of sg' = exp_of sg -> sh_index s' = sh_index s -> books s th s' th'
| bk_last n h src a sg sg' : th = TCounted n h src a -> th' = TDel n h src a -> sh_heap s !! a = Some sg -> sh_heap s' = <[a := sg']> (sh_heap s) ->
    sh_index s' = sh_index s -> books s th s' th'
| bk_drop n h src a : th = TDel n h src a -> (∀ x, put_done_to x th' = []) -> sh_index s' = delete src (sh_index s) ->
    (∀ a sg, sh_heap s !! a = Some sg -> ∃ sg', sh_heap s' !! a = Some sg' ∧ held sg' = held sg ∧ exp_of sg' = exp_of sg) -> books s th s' th'.

Lemma books_insert (h : gmap nat cstorage) a sg sg' : h !! a = Some sg -> held sg' = held sg -> exp_of sg' = exp_of sg ->
  ∀ b x, h !! b = Some x -> ∃ x', <[a:=sg']> h !! b = Some x' ∧ held x' = held x ∧ exp_of x' = exp_of x.
Proof.
  intros Ha E1 E2 b x Hb. destruct (decide (a = b)) as [->|Hne].
  - rewrite lookup_insert. replace x with sg by congruence. eauto.
  - rewrite lookup_insert_ne by done. eauto.
Qed.
Lemma step_books m tid ch s th s' th' ths : 1 <= m -> trees m s ths -> tstep tid ch s th = Some (s', th') -> books s th s' th'.
Proof.
  intros Hm HT H.
  assert (HO : ∀ a sg, sh_heap s !! a = Some sg -> avl_ok (cs_tree sg)) by (intros; by eapply tr_ok).
  destruct th; cbn [tstep] in H; step_cases H.
  all: try match goal with E : lock _ _ = Some _ |- _ => apply lock_Some in E as (? & ? & ->) end.
  all: try match goal with E : rlock _ _ = Some _ |- _ => apply rlock_Some in E as (? & ->) end.
  all: try (apply bk_same; [intros; eauto|done|done]; fail).
  all: try (by eapply bk_new).
  all: try (apply bk_same; [eapply books_insert; [eassumption|reflexivity|reflexivity]|done|done]; fail).
  - match goal with E : mbind _ (avl_left _) = Some _ |- _ => apply left_remove in E as (k & v & l & E1 & E2 & Hok); [|by eapply HO] end.
    eapply (bk_take _ _ _ _ src a); [apply elem_of_list_here|eassumption|reflexivity|exact E1|exact E2|reflexivity|done|done].
  - apply bind_Some in E as (t' & Hput & E). apply bind_Some in E as ([k v] & Hl & E). injection E as <- <-.
    destruct (put_tree e (cs_tree x)) as (t2 & k2 & v2 & l2 & E1 & E2 & E3 & E4 & E5); [by eapply HO|].
    rewrite Hput in E1. injection E1 as <-.
    destruct (find_fudge_spec (Z.to_nat 4000) 0 (e_ts e) (cs_tree x)) as (F1 & F2 & F3); [by eapply HO|].
    eapply (bk_put _ _ _ _ e src a x); try reflexivity; try exact E3; try eassumption; try lia; try done.
  - eapply (bk_last _ _ _ _ _ _ _ _ x); try reflexivity. eassumption.
  - match goal with E : mbind _ (avl_left _) = Some _ |- _ => apply left_remove in E as (k & v & l & E1' & E2' & Hok); [|by eapply HO] end.
    eapply (bk_take _ _ _ _ src a); [apply elem_of_list_here|eassumption|reflexivity|exact E1'|exact E2'|reflexivity|done|done].
  - eapply bk_drop; [reflexivity|done|reflexivity|]. eapply books_insert; [eassumption|reflexivity|reflexivity].
Qed.

Lemma refs_back tid ch s th s' th' src a : tstep tid ch s th = Some (s', th') -> (src, a) ∈ refs th' ->
  (src, a) ∈ refs th ∨ sh_index s !! src = Some a ∨ (∃ e, th = PMiss e src ∧ a = sh_next s).
Proof.
  intros H Ha. unfold refs in *. destruct th; cbn [tstep] in H; step_cases H; cbn [at_put ents app] in *.
  all: try (by inversion Ha).
  all: try (by left).
  all: try (apply elem_of_list_singleton in Ha; injection Ha as -> ->; eauto).
  all: try (apply elem_of_cons in Ha as [Ha|Ha]; [injection Ha as -> ->; eauto|by left]).
  all: try (left; by apply elem_of_cons; right).
  - left. rewrite fmap_snd_push in Ha. cbn in Ha. apply elem_of_cons in Ha as [[= -> ->]|Ha]; [by left|by right].
  - left. match goal with E : heap_pop _ _ = Some _ |- _ => apply heap_pop_perm in E; rewrite E end. cbn. done.
  - left. rewrite fmap_snd_push in Ha. cbn in Ha. done.
Qed.

Record kept (src : string) (s : shared) (ths : list thread) (owner : nat -> string) : Prop := {
  kp_miss : ∀ tid e, ths !! tid = Some (PMiss e src) -> sh_index s !! src = None;
  kp_refs : ∀ tid th a, ths !! tid = Some th -> (src, a) ∈ refs th -> sh_index s !! src = Some a;
  kp_owner : ∀ x a, sh_index s !! x = Some a -> owner a = x;
  kp_owns : ∀ tid th x a, ths !! tid = Some th -> (x, a) ∈ refs th -> owner a = x;
  kp_books : ∀ a sg, sh_index s !! src = Some a -> sh_heap s !! a = Some sg -> (∀ tid n h, ths !! tid ≠ Some (TDel n h src a)) ->
    ∃ gone, done_to src ths ≡ₚ gone ++ (held sg).*2 ∧ len gone = exp_of sg;
  kp_none : sh_index s !! src = None -> done_to src ths = []
}.
Lemma refs_addr th src a : (src, a) ∈ refs th -> a ∈ addrs th.
Proof.
  assert (E : ∀ h : list centry, (src, a) ∈ h.*2 -> a ∈ h.*2.*2) by (intros h Hh; apply elem_of_list_fmap; by exists (src, a)).
  unfold refs. destruct th; cbn [at_put ents app addrs]; intros H; try (by inversion H); try (by apply E).
  all: try (apply elem_of_list_singleton in H; injection H as -> ->; by left).
  all: apply elem_of_cons in H as [[= -> ->]|H]; [by left|]; right; by apply E.
Qed.
Lemma done_to_same src ths tid th th' : ths !! tid = Some th -> put_done_to src th' = put_done_to src th ->
  done_to src (<[tid:=th']> ths) ≡ₚ done_to src ths.
Proof. intros Ht E. destruct (bind_upd (put_done_to src) ths tid th th' Ht) as (r & E1 & E2). unfold done_to. by rewrite E1, E2, E. Qed.

Lemma kept_step m tid ch s th s' th' ths owner src : 1 <= m -> locks s ths -> trees m s ths -> kept src s ths owner ->
  ths !! tid = Some th -> tstep tid ch s th = Some (s', th') ->
  (is_Some (sh_index s !! src) -> is_Some (sh_index s' !! src)) ->
  (∀ e a sg, th = PRoom e src a -> sh_heap s !! a = Some sg -> ∃ f, 0 <= f < 4000 ∧ wrap64 (e_ts e + f) ∉ (held sg).*1) ->
  ∃ owner', kept src s' (<[tid:=th']> ths) owner'.
Proof.
  intros Hm HL HT [K1 K2 K3 K4 K5 K6] Ht H Hst Hfree.
  pose proof (step_books m _ _ _ _ _ _ _ Hm HT H) as HB.
  set (o' := fun a => if decide (a = sh_next s) then match th with PMiss _ x => x | _ => owner a end else owner a).
  (* the index of src afterwards *)
  assert (Hkeep : ∀ a, sh_index s !! src = Some a -> sh_index s' !! src = Some a).
  { intros a Ha. destruct HB as [_ _ E|e x -> _ E _|? ? ? ? ? ? ? _ _ _ _ _ _ _ E|? ? ? ? ? ? _ _ _ _ _ _ _ _ _ E|? ? ? ? ? ? _ _ _ _ E|n h x b -> _ E _].
    all: try (by rewrite E).
    - rewrite E. destruct (decide (x = src)) as [->|Hne]; [|by rewrite lookup_insert_ne]. exfalso. specialize (K1 _ _ Ht). congruence.
    - rewrite E. destruct (decide (x = src)) as [->|Hne]; [|by rewrite lookup_delete_ne]. exfalso.
      assert (is_Some (sh_index s' !! src)) as [y Hy] by eauto. rewrite E, lookup_delete in Hy. done. }
  assert (Hmiss : ∀ e, th' = PMiss e src -> sh_index s' !! src = None).
  { intros e ->. assert (sh_index s !! src = None) by (by eapply enter_miss). destruct (sh_index s' !! src) as [y|] eqn:Ey; [|done]. exfalso.
    destruct th; cbn [tstep] in H; step_cases H; try discriminate. congruence. }
  assert (Hrefs : ∀ x a, (x, a) ∈ refs th' -> (x, a) ∈ refs th ∨ sh_index s !! x = Some a ∨ (∃ e, th = PMiss e x ∧ a = sh_next s))
    by (intros; by eapply refs_back).
  exists o'.
  assert (Hold : ∀ x a, owner a = x -> is_Some (sh_heap s !! a) -> o' a = x).
  { intros x a Ho [sg Ha]. unfold o'. rewrite decide_False; [done|]. by eapply fresh_next. }
  split.
  - intros t e H1. apply insert_Some in H1 as [[<- Hm1]|[Hne H1]]; [by apply (Hmiss _ Hm1)|]. pose proof (K1 _ _ H1) as Hn.
    destruct HB as [_ _ E|e' x -> _ E _|? ? ? ? ? ? ? _ _ _ _ _ _ _ E|? ? ? ? ? ? _ _ _ _ _ _ _ _ _ E|? ? ? ? ? ? _ _ _ _ E|n h x b -> _ E _].
    all: try (by rewrite E).
    + rewrite E. destruct (decide (x = src)) as [->|?]; [|by rewrite lookup_insert_ne]. exfalso.
      pose proof (lk_i _ _ HL _ _ Ht eq_refl). pose proof (lk_i _ _ HL _ _ H1 eq_refl). congruence.
    + rewrite E. apply lookup_delete_None. by right.
  - intros t th2 a H1 Ha. apply insert_Some in H1 as [[<- <-]|[Hne H1]]; [|apply Hkeep; by eapply K2].
    destruct (Hrefs _ _ Ha) as [R|[R|(e & -> & ->)]]; [apply Hkeep; by eapply K2|by apply Hkeep|].
    cbn [tstep] in H. injection H as <- <-. cbn. by rewrite lookup_insert.
  - intros x a Hx.
    destruct HB as [_ _ E|e y -> _ E _|? ? ? ? ? ? ? _ _ _ _ _ _ _ E|? ? ? ? ? ? _ _ _ _ _ _ _ _ _ E|? ? ? ? ? ? _ _ _ _ E|n h y b -> _ E _]; rewrite E in Hx.
    all: try (apply Hold; [by eapply K3|by eapply lk_index]; fail).
    + apply lookup_insert_Some in Hx as [[-> <-]|[_ Hx]]; [unfold o'; by rewrite decide_True|]. apply Hold; [by eapply K3|by eapply lk_index].
    + apply lookup_delete_Some in Hx as [_ Hx]. apply Hold; [by eapply K3|by eapply lk_index].
  - intros t th2 x a H1 Ha. apply insert_Some in H1 as [[<- <-]|[Hne H1]].
    + destruct (Hrefs _ _ Ha) as [R|[R|(e & -> & ->)]].
      * apply Hold; [by eapply K4|]. eapply lk_addr; eauto. by eapply refs_addr.
      * apply Hold; [by eapply K3|by eapply lk_index].
      * unfold o'. by rewrite decide_True.
    + apply Hold; [by eapply K4|]. eapply lk_addr; eauto. by eapply refs_addr.
  - intros a sg' Ha Hsg' Hnd.
    assert (Hnd0 : ∀ a0, sh_index s !! src = Some a0 -> a0 = a).
    { intros a0 H0. apply Hkeep in H0. congruence. }
    assert (Hndel : sh_index s !! src = Some a -> ∀ t n h, ths !! t ≠ Some (TDel n h src a)).
    { intros H0 t n h Hd. destruct (decide (t = tid)) as [->|Hne].
      - rewrite Ht in Hd. injection Hd as ->. cbn [tstep] in H. apply bind_Some in H as (y & _ & H). injection H as <- <-.
        cbn in Ha. by rewrite lookup_delete in Ha.
      - apply (Hnd t n h). by rewrite list_lookup_insert_ne. }
    destruct HB as [Eh Ed E|e x -> Ed E Eh|x b sg sg2 k v l Hr Hb Eh E1 E2 E3 Ed E|e x b sg sg2 f -> -> Hb Eh F1 F2 F3 E1 E2 E|n h x b sg sg2 -> -> Hb Eh E|n h x b -> Ed E Eh].
    + rewrite E in Ha. destruct (lk_index _ _ HL _ _ Ha) as [sg Hsg]. destruct (Eh _ _ Hsg) as (y & Hy & Y1 & Y2).
      replace y with sg' in * by congruence. destruct (K5 a sg Ha Hsg (Hndel Ha)) as (gone & G1 & G2). exists gone.
      rewrite (done_to_same _ _ _ _ _ Ht (Ed src)), Y1, Y2. done.
    + assert (Ed' : done_to src (<[tid:=th']> ths) ≡ₚ done_to src ths) by (apply (done_to_same _ _ _ _ _ Ht); by rewrite Ed).
      rewrite E in Ha. apply lookup_insert_Some in Ha as [[-> <-]|[Hne Ha]].
      * rewrite Eh, lookup_insert in Hsg'. injection Hsg' as <-. exists []. rewrite Ed'. rewrite (K6 (K1 _ _ Ht)). done.
      * assert (Hn : a ≠ sh_next s) by (intros ->; by eapply fresh_index). rewrite Eh, lookup_insert_ne in Hsg' by done.
        destruct (K5 a sg' Ha Hsg' (Hndel Ha)) as (gone & G1 & G2). exists gone. by rewrite Ed'.
    + rewrite E in Ha. pose proof (done_to_same _ _ _ _ _ Ht (Ed src)) as Ed'. rewrite Eh in Hsg'.
      apply lookup_insert_Some in Hsg' as [[-> <-]|[Hne Hsg']].
      * destruct (K5 a sg Ha Hb (Hndel Ha)) as (gone & G1 & G2). exists (gone ++ [v]). rewrite Ed', G1, E1, E2, E3. cbn. split.
        -- by rewrite <-app_assoc.
        -- rewrite len_app, G2. unfold len. cbn. lia.
      * destruct (K5 a sg' Ha Hsg' (Hndel Ha)) as (gone & G1 & G2). exists gone. by rewrite Ed'.
    + rewrite E in Ha. rewrite Eh in Hsg'.
      destruct (bind_upd (put_done_to src) ths tid _ (PDone e x) Ht) as (r & D1 & D2). fold (done_to src ths) in D1.
      fold (done_to src (<[tid:=PDone e x]> ths)) in D2. cbn [put_done_to] in D1, D2. cbn [app] in D1.
      destruct (decide (x = src)) as [->|Hxs].
      * assert (b = a) as -> by (pose proof (K2 _ _ b Ht ltac:(apply elem_of_list_here)); congruence).
        rewrite lookup_insert in Hsg'. injection Hsg' as <-.
        destruct (K5 a sg Ha Hb (Hndel Ha)) as (gone & G1 & G2). exists gone. rewrite E2, D2. split; [|done].
        destruct (Hfree e a sg eq_refl Hb) as (f0 & Hf0 & Hf0').
        assert (Hf : f < 4000). { destruct (decide (f <= f0)); [lia|]. exfalso. apply Hf0'. apply F2. lia. }
        rewrite E1, (linsert_new_perm _ _ _ (F3 Hf)). rewrite <-D1, G1. cbn. by rewrite Permutation_middle.
      * assert (Hba : b ≠ a). { intros ->. pose proof (K4 _ _ x a Ht ltac:(apply elem_of_list_here)). pose proof (K3 _ _ Ha). congruence. }
        rewrite lookup_insert_ne in Hsg' by done. destruct (K5 a sg' Ha Hsg' (Hndel Ha)) as (gone & G1 & G2). exists gone.
        rewrite D2. cbn [app]. by rewrite <-D1.
    + rewrite E in Ha. assert (Hba : b ≠ a).
      { intros ->. pose proof (K4 _ _ x a Ht ltac:(apply elem_of_list_here)). pose proof (K3 _ _ Ha). replace x with src in * by congruence.
        apply (Hnd tid n h). apply list_lookup_insert. by eapply lookup_lt_Some. }
      rewrite Eh, lookup_insert_ne in Hsg' by done. destruct (K5 a sg' Ha Hsg' (Hndel Ha)) as (gone & G1 & G2). exists gone.
      by rewrite (done_to_same src ths tid _ (TDel n h x b) Ht eq_refl).
    + rewrite E in Ha. apply lookup_delete_Some in Ha as [_ Ha]. destruct (lk_index _ _ HL _ _ Ha) as [sg Hsg].
      destruct (Eh _ _ Hsg) as (y & Hy & Y1 & Y2). replace y with sg' in * by congruence.
      destruct (K5 a sg Ha Hsg (Hndel Ha)) as (gone & G1 & G2). exists gone. rewrite Y1, Y2. split; [|done]. rewrite <-G1.
      apply (done_to_same _ _ _ _ _ Ht). by rewrite Ed.
  - intros Hn. assert (Hn0 : sh_index s !! src = None).
    { destruct (sh_index s !! src) as [y|] eqn:Ey; [|done]. pose proof (Hkeep _ eq_refl). congruence. }
    apply Permutation_nil. symmetry. rewrite <-(K6 Hn0). apply (done_to_same _ _ _ _ _ Ht).
    destruct HB as [_ Ed _|e x -> Ed _ _|? ? ? ? ? ? ? _ _ _ _ _ _ Ed _|e x b sg sg2 f -> -> _ _ _ _ _ _ _ _|n h x b sg sg2 -> -> _ _ _|n h x b -> Ed _ _]; try done.
    all: try (by rewrite Ed).
    cbn. destruct (decide (x = src)) as [->|]; [|done]. exfalso.
    pose proof (K2 _ _ b Ht ltac:(apply elem_of_list_here)). congruence.
Qed.
Lemma kept_call src s ths owner x : kept src s ths owner -> kept src s (ths ++ [start_of x]) owner.
Proof.
  intros [K1 K2 K3 K4 K5 K6].
  assert (Ed : done_to src (ths ++ [start_of x]) = done_to src ths).
  { unfold done_to. rewrite bind_app. destruct x; cbn; by rewrite app_nil_r. }
  split; rewrite ?Ed; try done.
  - intros t e H. apply lookup_app_Some in H as [H|[_ H]]; [by eapply K1|]. apply list_lookup_singleton_Some in H as [_ H]. by destruct x.
  - intros t th a H. apply lookup_app_Some in H as [H|[_ H]]; [by eapply K2|]. apply list_lookup_singleton_Some in H as [_ <-].
    destruct x; intros Hi; by inversion Hi.
  - intros t th y a H. apply lookup_app_Some in H as [H|[_ H]]; [by eapply K4|]. apply list_lookup_singleton_Some in H as [_ <-].
    destruct x; intros Hi; by inversion Hi.
  - intros a sg Ha Hs Hn. apply (K5 a sg Ha Hs). intros t n h Ht. apply (Hn t n h). by apply lookup_app_l_Some.
Qed.
Theorem kept_reach m ls c src : 1 <= m -> spread m ls -> stays m ls src -> crun (initial m) ls = Some c ->
  ∃ owner, kept src (cf_sh c) (cf_threads c) owner.
Proof.
  intros Hm. revert c. induction ls as [|l ls IH] using rev_ind; intros c Hsp Hst H.
  { injection H as <-. exists (fun _ => ""%string). split; cbn; intros *; rewrite ?lookup_empty, ?lookup_nil; done. }
  pose proof (spread_prefix _ _ _ Hsp) as Hsp1.
  assert (Hst1 : stays m ls src).
  { intros l1 l2 l3 c1 c2 -> H1 H2. apply (Hst l1 l2 (l3 ++ [l])); [by rewrite !app_assoc|done|done]. }
  pose proof H as Hrun. apply crun_snoc in H as (c1 & H1 & H2). destruct (IH c1 Hsp1 Hst1 H1) as [owner HK].
  destruct (trees_reach m ls c1 Hm H1) as [HL HT].
  assert (Hnow : is_Some (sh_index (cf_sh c1) !! src) -> is_Some (sh_index (cf_sh c) !! src)).
  { apply (Hst ls [l] []); [by rewrite app_nil_r|done|done]. }
  apply cstep_cases in H2 as [(x & -> & ->)|(tid & ch & th & s' & th' & -> & Ht & Hs & ->)]; cbn [cf_sh cf_threads].
  - exists owner. by apply kept_call.
  - eapply (kept_step m); eauto. intros e a sg -> Ha. by eapply (free_reach m ls c1).
Qed.
Theorem stays_accounting m ls c src : 1 <= m -> spread m ls -> stays m ls src -> crun (initial m) ls = Some c ->
  (∀ th, th ∈ cf_threads c -> dropping th = false) ->
  ∃ expired, written_to src c ≡ₚ expired ++ visible_to c src ∧ Z.of_nat (length expired) = visible_expired c src.
Proof.
  intros Hm Hsp Hst H Hd. destruct (kept_reach m ls c src Hm Hsp Hst H) as [owner HK]. destruct (trees_reach m ls c Hm H) as [HL HT].
  unfold visible_to, visible_expired. destruct (sh_index (cf_sh c) !! src) as [a|] eqn:Ea.
  - destruct (lk_index _ _ HL _ _ Ea) as [sg Hsg]. rewrite Hsg. apply (kp_books _ _ _ _ HK a sg Ea Hsg).
    intros t n h Ht. apply elem_of_list_lookup_2 in Ht. by specialize (Hd _ Ht).
  - exists []. split; [|done]. change (written_to src c) with (done_to src (cf_threads c)). by rewrite (kp_none _ _ _ _ HK Ea).
Qed.
