(** Accounting under any interleaving, truncation included. *)
From stdpp Require Import prelude gmap strings.
From Coq Require Import ZifyBool ZifyNat.
From Verif.Base Require Import GoInt Envelope.
From Verif.Store Require Import Avl AvlProofs GoHeap GoHeapProofs Model Spec ProofsBase ProofsRoom.
From Verif.StoreConc Require Import Model Spec ProofsLock ProofsTree ProofsLin.
Open Scope Z_scope.
#[local] Opaque find_fudge avl_put avl_remove avl_left get_tree lookup insert heap_pop heap_push.

Lemma bind_upd {A B} (f : A -> list B) (l : list A) i x y : l !! i = Some x ->
  ∃ rest, (l ≫= f) ≡ₚ f x ++ rest ∧ (<[i:=y]> l ≫= f) ≡ₚ f y ++ rest.
Proof.
  intros H. apply elem_of_list_split_length in H as (l1 & l2 & -> & ->).
  exists ((l1 ≫= f) ++ (l2 ≫= f)). rewrite insert_app_r_alt by lia. rewrite Nat.sub_diag. cbn [insert list_insert].
  rewrite !bind_app. Transparent insert. cbn. split; rewrite !app_assoc; f_equiv; apply Permutation_app_comm.
Qed.
#[local] Opaque insert.

Definition held_in (h : gmap nat cstorage) : list envelope := map_to_list h ≫= (fun p => (held p.2).*2).
Lemma held_upd h a sg sg' : h !! a = Some sg ->
  ∃ rest, held_in h ≡ₚ (held sg).*2 ++ rest ∧ held_in (<[a:=sg']> h) ≡ₚ (held sg').*2 ++ rest.
Proof.
  intros H. exists (held_in (delete a h)). unfold held_in. split.
  - rewrite <-(map_to_list_delete h a sg H). done.
  - rewrite <-insert_delete_insert, map_to_list_insert by apply lookup_delete. done.
Qed.
Lemma held_new h a sg : h !! a = None -> held sg = [] -> held_in (<[a:=sg]> h) ≡ₚ held_in h.
Proof. intros H Hs. unfold held_in. rewrite map_to_list_insert by done. cbn. by rewrite Hs. Qed.

Definition rooms (ths : list thread) : list unit := ths ≫= (fun th => match th with PRoom _ _ _ => [()] | _ => [] end).
Definition counteds (ths : list thread) : list unit := ths ≫= (fun th => match th with TCounted _ _ _ _ => [()] | _ => [] end).
Definition asked (src : string) (th : thread) : list envelope :=
  match th with
  | PStart e s | PInit e s | PMiss e s | PWait e s _ | PIn e s _ | PRoom e s _ | PDone e s => if decide (s = src) then [e] else []
  | _ => []
  end.
Definition asked_to (src : string) (ths : list thread) : list envelope := ths ≫= asked src.
Definition done_to (src : string) (ths : list thread) : list envelope := ths ≫= put_done_to src.
Definition done_all (ths : list thread) : list envelope := ths ≫= put_done.

Definition len {A} (l : list A) : Z := Z.of_nat (length l).

Record acct (s : shared) (ths : list thread) : Prop := {
  ac_exp : ∃ gone, len gone + len (counteds ths) = sh_expired s ∧ done_all ths ≡ₚ gone ++ held_in (sh_heap s);
  ac_count : sh_count s = wrap64 (len (held_in (sh_heap s)) + len (rooms ths) - len (counteds ths))
}.

(** Which source a storage belongs to, and that its content was put to that source *)
Record owned (s : shared) (ths : list thread) (owner : nat -> string) : Prop := {
  ow_index : ∀ src a, sh_index s !! src = Some a -> owner a = src;
  ow_own : ∀ tid th src a, ths !! tid = Some th -> own th = Some (src, a) -> owner a = src;
  ow_held : ∀ a sg, sh_heap s !! a = Some sg ->
    (held sg).*2 ⊆+ done_to (owner a) ths ∧ Forall (fun p => e_ts p.2 <= p.1 <= e_ts p.2 + 4000) (held sg)
}.

Lemma asked_mono tid ch s th s' th' src : tstep tid ch s th = Some (s', th') -> asked src th' ⊆+ asked src th.
Proof. intros H. destruct th; cbn [tstep] in H; step_cases H; cbn [asked]; try done; apply submseteq_nil_l. Qed.
Lemma done_mono tid ch s th s' th' src : tstep tid ch s th = Some (s', th') -> put_done_to src th ⊆+ put_done_to src th'.
Proof. intros H. destruct th; cbn [tstep] in H; step_cases H; cbn [put_done_to]; try done; apply submseteq_nil_l. Qed.

Lemma done_asked src th : put_done_to src th ⊆+ asked src th.
Proof. destruct th; cbn; try done; apply submseteq_nil_l. Qed.
Lemma done_to_asked src ths : done_to src ths ⊆+ asked_to src ths.
Proof. unfold done_to, asked_to. induction ths as [|th ths IH]; [done|]. cbn. apply submseteq_app; [apply done_asked|done]. Qed.

(** A free storage time exists for a call that is about to insert *)
Definition fits (m : Z) (src : string) (e : envelope) (ths : list thread) : Prop :=
  m <= 4000 ∨ in64 (e_ts e) ∧ in64 (e_ts e + 4000) ∧
    len (filter (fun x => e_ts e - 4000 <= e_ts x <= e_ts e + 4000) (asked_to src ths)) <= 4000.

Lemma fits_free m s ths owner tid e src a sg : trees m s ths ->
  (m <= 4000 ∨ owned s ths owner) -> fits m src e ths ->
  ths !! tid = Some (PRoom e src a) -> sh_heap s !! a = Some sg ->
  ∃ f, 0 <= f < 4000 ∧ wrap64 (e_ts e + f) ∉ (held sg).*1.
Proof.
  intros HT HO Hfit Ht Ha. destruct (free_or_full (e_ts e) 4000 (held sg).*1) as [?|Hsub]; [lia|done|]. exfalso.
  destruct (decide (m <= 4000)) as [Hm|Hm].
  - pose proof (tr_room _ _ _ HT _ _ _ _ _ Ht Ha) as Hr. apply submseteq_length in Hsub.
    rewrite !fmap_length, seqZ_length in Hsub. unfold size_of in Hr. lia.
  - destruct HO as [?|HO]; [done|]. destruct Hfit as [?|(H64 & H64' & Hlt)]; [done|].
    destruct (ow_held _ _ _ HO _ _ Ha) as [Hputs Hkeys].
    rewrite (ow_own _ _ _ HO _ _ _ _ Ht eq_refl) in Hputs.
    apply (filter_submseteq (fun k => e_ts e <= k <= e_ts e + 3999)) in Hsub.
    rewrite filter_all in Hsub.
    2: { apply Forall_fmap, Forall_forall. intros f Hf. apply elem_of_seqZ in Hf. simpl.
         unfold in64 in *. rewrite wrap64_id by (unfold in64; lia). lia. }
    apply submseteq_length in Hsub. rewrite fmap_length, seqZ_length in Hsub.
    assert (Hle : (length (filter (fun k => (e_ts e <= k <= e_ts e + 3999)%Z) (held sg).*1) <=
             length (filter (fun x => (e_ts e - 4000 <= e_ts x <= e_ts e + 4000)%Z) (held sg).*2))%nat).
    { clear -Hkeys. induction Hkeys as [|[k x] l Hx Hl IH]; [done|]. cbn [fmap list_fmap fst snd]. rewrite !filter_cons.
      simpl in Hx. repeat case_decide; simpl; try lia. }
    (* the call itself is asked but not done *)
    assert (Hself : e :: done_to src ths ⊆+ asked_to src ths).
    { destruct (bind_upd (put_done_to src) ths tid _ Panicked Ht) as (r1 & E1 & E1').
      destruct (bind_upd (asked src) ths tid _ Panicked Ht) as (r2 & E2 & E2').
      unfold done_to, asked_to. rewrite E1, E2. cbn [put_done_to asked app]. rewrite decide_True by done. cbn [app].
      apply submseteq_skip. cbn [put_done_to asked app] in E1', E2'. rewrite <-E1', <-E2'. apply done_to_asked. }
    apply (filter_submseteq (fun x => e_ts e - 4000 <= e_ts x <= e_ts e + 4000)) in Hputs, Hself.
    rewrite filter_cons_True in Hself by lia.
    apply submseteq_length in Hputs, Hself. cbn [length] in Hself. unfold len in Hlt. lia.
Qed.

(** ** The accounting step *)
Lemma wrap_add a d : wrap64 (wrap64 a + d) = wrap64 (a + d).
Proof. unfold wrap64. lia. Qed.

Lemma len_app {A} (l1 l2 : list A) : len (l1 ++ l2) = len l1 + len l2.
Proof. unfold len. rewrite app_length. lia. Qed.
Lemma len_perm {A} (l1 l2 : list A) : l1 ≡ₚ l2 -> len l1 = len l2.
Proof. unfold len. intros H. by rewrite (Permutation_length H). Qed.

Lemma linsert_new_perm k (e : envelope) l : k ∉ l.*1 -> (linsert k e l).*2 ≡ₚ e :: l.*2.
Proof. intros H. by rewrite linsert_perm. Qed.

(** Numbers that a step changes apart from the heap *)
Definition d_room (th : thread) : Z := match th with PRoom _ _ _ => 1 | _ => 0 end.
Definition d_counted (th : thread) : Z := match th with TCounted _ _ _ _ => 1 | _ => 0 end.

Lemma counts_upd ths tid th th' : ths !! tid = Some th ->
  len (rooms (<[tid:=th']> ths)) = len (rooms ths) + d_room th' - d_room th ∧
  len (counteds (<[tid:=th']> ths)) = len (counteds ths) + d_counted th' - d_counted th.
Proof.
  intros Ht. unfold rooms, counteds.
  destruct (bind_upd (fun th => match th with PRoom _ _ _ => [()] | _ => [] end) ths tid th th' Ht) as (r1 & E1 & E1').
  destruct (bind_upd (fun th => match th with TCounted _ _ _ _ => [()] | _ => [] end) ths tid th th' Ht) as (r2 & E2 & E2').
  assert (Hd : ∀ th, len (match th with PRoom _ _ _ => [()] | _ => [] end) = d_room th) by (intros []; done).
  assert (Hd2 : ∀ th, len (match th with TCounted _ _ _ _ => [()] | _ => [] end) = d_counted th) by (intros []; done).
  rewrite (len_perm _ _ E1), (len_perm _ _ E1'), (len_perm _ _ E2), (len_perm _ _ E2'), !len_app, !Hd, !Hd2.
  lia.
Qed.

(** What a step may do: [lost] leaves the storages *)
Lemma acct_move s ths s' tid th th' lost : ths !! tid = Some th -> acct s ths ->
  sh_expired s' = sh_expired s + len lost + (d_counted th' - d_counted th) ->
  put_done th' ++ held_in (sh_heap s) ≡ₚ put_done th ++ lost ++ held_in (sh_heap s') ->
  sh_count s' = wrap64 (sh_count s + (len (put_done th') - len (put_done th) - len lost) + (d_room th' - d_room th) - (d_counted th' - d_counted th)) ->
  acct s' (<[tid:=th']> ths).
Proof.
  intros Ht [He Hc] Ee Ep Ec. destruct (counts_upd ths tid th th' Ht) as [H1 H2]. split.
  - destruct He as (gone & Hg1 & Hg2). exists (gone ++ lost). split; [rewrite len_app; lia|].
    destruct (bind_upd put_done ths tid th th' Ht) as (r & E1 & E1'). unfold done_all in *.
    apply (Permutation_app_inv_l (put_done th ++ held_in (sh_heap s))).
    rewrite E1'. rewrite E1 in Hg2.
    transitivity ((put_done th' ++ held_in (sh_heap s)) ++ (put_done th ++ r)); [solve_Permutation|].
    rewrite Hg2, Ep. solve_Permutation.
  - rewrite Ec, Hc. apply len_perm in Ep. rewrite !len_app in Ep.
    replace (wrap64 (len (held_in (sh_heap s)) + len (rooms ths) - len (counteds ths)) +
      (len (put_done th') - len (put_done th) - len lost) + (d_room th' - d_room th) - (d_counted th' - d_counted th))
      with (wrap64 (len (held_in (sh_heap s)) + len (rooms ths) - len (counteds ths)) +
      ((len (put_done th') - len (put_done th) - len lost) + (d_room th' - d_room th) - (d_counted th' - d_counted th))) by lia.
    rewrite wrap_add. f_equal. lia.
Qed.

Lemma wrap_idem a : wrap64 (wrap64 a) = wrap64 a.
Proof. unfold wrap64. lia. Qed.

Lemma acct_step m tid ch s th s' th' ths : 1 <= m -> locks s ths -> trees m s ths -> acct s ths -> ths !! tid = Some th ->
  tstep tid ch s th = Some (s', th') -> th' ≠ Panicked ->
  (∀ e src a sg, th = PRoom e src a -> sh_heap s !! a = Some sg -> ∃ f, 0 <= f < 4000 ∧ wrap64 (e_ts e + f) ∉ (held sg).*1) ->
  acct s' (<[tid:=th']> ths).
Proof.
  intros Hm HL HT HA Ht H Hnp Hfree.
  assert (Hok : ∀ a sg, sh_heap s !! a = Some sg -> avl_ok (cs_tree sg)) by (intros; by eapply (tr_ok _ _ _ HT)).
  assert (Hkeep : ∀ a sg sg', sh_heap s !! a = Some sg -> cs_tree sg' = cs_tree sg -> held_in (<[a:=sg']> (sh_heap s)) ≡ₚ held_in (sh_heap s)).
  { intros a sg sg' Ha Hs. destruct (held_upd (sh_heap s) a sg sg' Ha) as (r2 & E2 & E3).
    rewrite E2, E3. unfold held. by rewrite Hs. }
  assert (Hcut : ∀ a sg sg' k v l, sh_heap s !! a = Some sg -> held sg = (k, v) :: l -> held sg' = l ->
            held_in (sh_heap s) ≡ₚ v :: held_in (<[a:=sg']> (sh_heap s))).
  { intros a sg sg' k v l Ha E E'. destruct (held_upd (sh_heap s) a sg sg' Ha) as (r2 & E2 & E3).
    rewrite E2, E3, E, E'. done. }
  assert (Hwc : sh_count s = wrap64 (sh_count s)) by (rewrite (ac_count _ _ HA), wrap_idem; done).
  destruct th; cbn [tstep] in H; step_cases H.
  all: try (by destruct Hnp).
  all: try match goal with E : lock _ _ = Some _ |- _ => apply lock_Some in E as (? & ? & ->) end.
  all: try match goal with E : rlock _ _ = Some _ |- _ => apply rlock_Some in E as (? & ->) end.
  all: try (eapply (acct_move s ths _ tid _ _ []); [exact Ht|exact HA|unfold len; cbn; lia|cbn; done|cbn [sh_count set_heap set_init add_ing]; rewrite Hwc at 1; f_equal; unfold len; cbn; lia]; fail).
  all: try (eapply (acct_move s ths _ tid _ _ []); [exact Ht|exact HA|unfold len; cbn; lia|cbn; symmetry; eapply Hkeep; [eassumption|reflexivity]|cbn [sh_count set_heap set_init set_idx add_ing]; rewrite Hwc at 1; f_equal; unfold len; cbn; lia]; fail).
  - (* new storage *)
    eapply (acct_move s ths _ tid _ _ []); [exact Ht|exact HA|unfold len; cbn; lia| |cbn [sh_count]; rewrite Hwc at 1; f_equal; unfold len; cbn; lia].
    cbn. symmetry. apply held_new; [|done]. destruct (sh_heap s !! sh_next s) eqn:E; [|done]. pose proof (lk_fresh _ _ HL _ _ E). lia.
  - (* eviction *)
    match goal with E : mbind _ (avl_left _) = Some _ |- _ => apply left_remove in E as (k & v & l & Eh1 & Eh2 & _); [|by eapply Hok] end.
    eapply (acct_move s ths _ tid _ _ [v]); [exact Ht|exact HA|unfold len; cbn; lia| |cbn [sh_count add_exp set_heap]; rewrite Hwc at 1; f_equal; unfold len; cbn; lia].
    cbn. eapply Hcut; [eassumption|exact Eh1|exact Eh2].
  - (* room without eviction *)
    eapply (acct_move s ths _ tid _ _ []); [exact Ht|exact HA|unfold len; cbn; lia|done|cbn [sh_count add_count]; f_equal; unfold len; cbn; lia].
  - (* insertion *)
    destruct (Hfree _ _ _ _ eq_refl H0) as (f & Hf & Hk).
    match goal with E : _ = Some (_, _) |- _ => apply bind_Some in E as (t' & Hput & E); apply bind_Some in E as ([k v] & Hl & E); injection E as <- <- end.
    destruct (avl_put_ok (wrap64 (e_ts e + find_fudge (Z.to_nat 4000) 0 (e_ts e) (cs_tree x))) e (cs_tree x)) as (t2 & E1 & E2 & E3); [by eapply Hok|].
    rewrite Hput in E1. injection E1 as <-.
    destruct (find_fudge_spec (Z.to_nat 4000) 0 (e_ts e) (cs_tree x)) as (F1 & F2 & F3); [by eapply Hok|].
    set (g := find_fudge _ _ _ _) in *.
    assert (Hnk : wrap64 (e_ts e + g) ∉ (held x).*1).
    { apply F3. destruct (decide (g < 4000)); [lia|]. exfalso. apply Hk. apply F2. lia. }
    eapply (acct_move s ths _ tid _ _ []); [exact Ht|exact HA|unfold len; cbn; lia| |cbn [sh_count set_heap]; rewrite Hwc at 1; f_equal; unfold len; cbn; lia].
    cbn [put_done app sh_heap set_heap].
    match goal with |- context [<[a:=?y]> (sh_heap s)] => destruct (held_upd (sh_heap s) a x y H0) as (r2 & R2 & R3) end.
    rewrite R2, R3. unfold held at 2. cbn [cs_tree]. rewrite E3. fold (held x). rewrite linsert_new_perm by done. done.
  - (* counted *)
    eapply (acct_move s ths _ tid _ _ []); [exact Ht|exact HA|unfold len; cbn; lia|done|cbn [sh_count add_exp add_count]; f_equal; unfold len; cbn; lia].
  - match goal with E : mbind _ (avl_left _) = Some _ |- _ => apply left_remove in E as (k & v & l & Eh1 & Eh2 & _); [|by eapply Hok] end.
    eapply (acct_move s ths _ tid _ _ [v]); [exact Ht|exact HA|unfold len; cbn; lia| |cbn [sh_count set_heap]; rewrite Hwc at 1; f_equal; unfold len; cbn; lia].
    cbn. eapply Hcut; [eassumption|exact Eh1|exact Eh2].
  - match goal with E : mbind _ (avl_left _) = Some _ |- _ => apply left_remove in E as (k & v & l & Eh1 & Eh2 & _); [|by eapply Hok] end.
    eapply (acct_move s ths _ tid _ _ [v]); [exact Ht|exact HA|unfold len; cbn; lia| |cbn [sh_count set_heap]; rewrite Hwc at 1; f_equal; unfold len; cbn; lia].
    cbn. eapply Hcut; [eassumption|exact Eh1|exact Eh2].
Qed.

(** ** Ownership *)
Lemma done_to_step ths tid ch s th s' th' src : ths !! tid = Some th -> tstep tid ch s th = Some (s', th') ->
  done_to src ths ⊆+ done_to src (<[tid:=th']> ths).
Proof.
  intros Ht H. destruct (bind_upd (put_done_to src) ths tid th th' Ht) as (r & E & E'). unfold done_to. rewrite E, E'.
  apply submseteq_app; [|done]. by eapply done_mono.
Qed.
Lemma asked_to_step ths tid ch s th s' th' src : ths !! tid = Some th -> tstep tid ch s th = Some (s', th') ->
  asked_to src (<[tid:=th']> ths) ⊆+ asked_to src ths.
Proof.
  intros Ht H. destruct (bind_upd (asked src) ths tid th th' Ht) as (r & E & E'). unfold asked_to. rewrite E, E'.
  apply submseteq_app; [|done]. by eapply asked_mono.
Qed.

Lemma owned_step m tid ch s th s' th' ths owner : 1 <= m -> locks s ths -> trees m s ths -> owned s ths owner -> ths !! tid = Some th ->
  tstep tid ch s th = Some (s', th') ->
  (∀ e src a, th = PRoom e src a -> in64 (e_ts e) ∧ in64 (e_ts e + 4000)) ->
  ∃ owner', owned s' (<[tid:=th']> ths) owner'.
Proof.
  intros Hm HL HT HO Ht H H64.
  assert (Hd : ∀ x l, l ⊆+ done_to x ths -> l ⊆+ done_to x (<[tid:=th']> ths)).
  { intros x l Hl. etrans; [exact Hl|]. by eapply done_to_step. }
  pose proof (tstep_tree m _ _ _ _ _ _ _ Hm HT H) as HS.
  assert (Hfr : ∀ a sg, sh_heap s !! a = Some sg -> a ≠ sh_next s).
  { intros a sg Ha ->. pose proof (lk_fresh _ _ HL _ _ Ha). lia. }
  destruct HS as [Eh|e src -> -> Eh|b sg sg' Hb Eh Hok HE].
  - exists owner. split.
    + intros src a Ha. destruct (tstep_index _ _ _ _ _ _ H) as [Ei|[(e0 & src0 & -> & _ & Hx)|(? & ? & ? & ? & _ & Ei)]].
      * rewrite Ei in Ha. by apply (ow_index _ _ _ HO).
      * rewrite Eh in Hx. by destruct (Hfr _ _ Hx).
      * rewrite Ei in Ha. apply lookup_delete_Some in Ha as [_ Ha]. by apply (ow_index _ _ _ HO).
    + intros tid2 th2 src a H2 Ho. apply insert_Some in H2 as [[_ <-]|[_ H2]]; [|by eapply (ow_own _ _ _ HO)].
      destruct (tstep_own _ _ _ _ _ _ _ _ H Ho) as [Hx|[Hx|(e & -> & ->)]].
      * by eapply (ow_own _ _ _ HO).
      * by apply (ow_index _ _ _ HO).
      * exfalso. cbn [tstep] in H. injection H as <- _. cbn in Eh. apply (f_equal (lookup (sh_next s))) in Eh.
        rewrite lookup_insert in Eh. symmetry in Eh. by destruct (Hfr _ _ Eh).
    + intros a sg Ha. rewrite Eh in Ha. destruct (ow_held _ _ _ HO _ _ Ha). auto.
  - exists (fun a => if decide (a = sh_next s) then src else owner a). split.
    + intros x a Ha. cbn [tstep] in H. injection H as <-. cbn in Ha. apply lookup_insert_Some in Ha as [[<- <-]|[_ Ha]].
      * by rewrite decide_True.
      * destruct (lk_index _ _ HL _ _ Ha) as [y Hy]. rewrite decide_False by (by eapply Hfr). by apply (ow_index _ _ _ HO).
    + intros tid2 th2 x a H2 Ho. apply insert_Some in H2 as [[_ <-]|[_ H2]].
      * cbn in Ho. injection Ho as <- <-. by rewrite decide_True.
      * assert (Hin : a ∈ addrs th2) by (destruct th2; cbn in Ho; try discriminate; injection Ho as _ ->; cbn; constructor).
        destruct (lk_addr _ _ HL _ _ _ H2 Hin) as [y Hy]. rewrite decide_False by (by eapply Hfr). by eapply (ow_own _ _ _ HO).
    + intros a sg Ha. rewrite Eh in Ha. apply lookup_insert_Some in Ha as [[<- <-]|[_ Ha]].
      * split; [apply submseteq_nil_l|constructor].
      * rewrite decide_False by (by eapply Hfr). destruct (ow_held _ _ _ HO _ _ Ha). auto.
  - exists owner. split.
    + intros src a Ha. destruct (tstep_index _ _ _ _ _ _ H) as [Ei|[(e0 & src0 & -> & _ & Hx)|(? & ? & ? & ? & _ & Ei)]].
      * rewrite Ei in Ha. by apply (ow_index _ _ _ HO).
      * rewrite Eh in Hx. rewrite lookup_insert_ne in Hx by (by eapply Hfr). by destruct (Hfr _ _ Hx).
      * rewrite Ei in Ha. apply lookup_delete_Some in Ha as [_ Ha]. by apply (ow_index _ _ _ HO).
    + intros tid2 th2 src a H2 Ho. apply insert_Some in H2 as [[_ <-]|[_ H2]]; [|by eapply (ow_own _ _ _ HO)].
      destruct (tstep_own _ _ _ _ _ _ _ _ H Ho) as [Hx|[Hx|(e & -> & ->)]].
      * by eapply (ow_own _ _ _ HO).
      * by apply (ow_index _ _ _ HO).
      * exfalso. cbn [tstep] in H. injection H as <- _. cbn in Eh. apply (f_equal (lookup (sh_next s))) in Eh.
        rewrite lookup_insert in Eh. rewrite lookup_insert_ne in Eh by (by eapply Hfr). symmetry in Eh. by destruct (Hfr _ _ Eh).
    + intros a sg0 Ha. rewrite Eh in Ha. apply lookup_insert_Some in Ha as [[<- <-]|[_ Ha]].
      2: { destruct (ow_held _ _ _ HO _ _ Ha). auto. }
      destruct (ow_held _ _ _ HO _ _ Hb) as [Hh Hk].
      destruct HE as [E|e src k x l _ _ _ E1 E2 _|e src f -> -> Hf _ _ E2 _|n h src k x l _ _ _ E1 E2].
      * unfold held in *. rewrite E. auto.
      * rewrite E2. rewrite E1 in Hh, Hk. apply Forall_cons in Hk as [_ Hk]. split; [|done]. apply Hd. etrans; [|exact Hh]. cbn. by constructor.
      * destruct (H64 _ _ _ eq_refl) as [Ha Hb']. rewrite E2. split.
        -- etrans; [apply linsert_snd_sub|].
           destruct (bind_upd (put_done_to (owner b)) ths tid _ (PDone e src) Ht) as (r & R & R').
           unfold done_to in *. rewrite R in Hh. rewrite R'. cbn [put_done_to app] in *.
           rewrite (ow_own _ _ _ HO _ _ _ _ Ht eq_refl) in *. rewrite decide_True by done.
           rewrite (Permutation_app_comm _ [e]). cbn. by apply submseteq_skip.
        -- apply Forall_linsert; [|done]. cbn. rewrite wrap64_id by (unfold in64 in *; lia). lia.
      * rewrite E2. rewrite E1 in Hh, Hk. apply Forall_cons in Hk as [_ Hk]. split; [|done]. apply Hd. etrans; [|exact Hh]. cbn. by constructor.
Qed.

Lemma asked_calls ls : ∀ m c, crun (initial m) ls = Some c ->
  (∀ src, asked_to src (cf_threads c) ⊆+ calls_to src ls) ∧
  (∀ tid th e src, cf_threads c !! tid = Some th -> e ∈ asked src th -> LCall (CPut e src) ∈ ls).
Proof.
  induction ls as [|l ls IH] using rev_ind; intros m c H.
  { injection H as <-. split; [done|]. intros *. cbn. by rewrite lookup_nil. }
  apply crun_snoc in H as (c1 & H1 & H2). destruct (IH m c1 H1) as [I1 I2].
  apply cstep_cases in H2 as [(x & -> & ->)|(tid & ch & th & s' & th' & -> & Ht & Hs & ->)]; cbn [cf_threads].
  - split.
    + intros src. unfold asked_to, calls_to in *. rewrite !bind_app. apply submseteq_app; [apply I1|]. cbn. rewrite !app_nil_r.
      destruct x; cbn; done.
    + intros tid th e src H He. rewrite elem_of_app. apply lookup_app_Some in H as [H|[_ H]]; [left; by eapply I2|]. right.
      apply list_lookup_singleton_Some in H as [_ <-]. destruct x; cbn in He; try (by inversion He).
      destruct (decide (src0 = src)) as [->|]; [|by inversion He]. apply elem_of_list_singleton in He as ->. by constructor.
  - split.
    + intros src. etrans; [by eapply asked_to_step|]. etrans; [apply I1|]. unfold calls_to. rewrite bind_app. apply submseteq_inserts_r. done.
    + intros tid2 th2 e src H He. rewrite elem_of_app. left. apply insert_Some in H as [[<- <-]|[_ H]]; [|by eapply I2].
      eapply I2; [exact Ht|]. eapply elem_of_submseteq; [exact He|]. by eapply asked_mono.
Qed.

Lemma spread_prefix m ls ls' : spread m (ls ++ ls') -> spread m ls.
Proof.
  intros [Hs|Hs]; [by left|right]. intros e src Hin. destruct (Hs e src) as (Ha & Hb & Hc); [apply elem_of_app; by left|].
  split; [done|]. split; [done|]. unfold calls_to in *. rewrite bind_app, filter_app, app_length in Hc. lia.
Qed.

Lemma no_panic_before c l c' : cstep c l = Some c' -> ¬ crashed c.
Proof.
  unfold cstep. destruct (existsb is_panicked (cf_threads c)) eqn:E; [done|]. intros _ Hp.
  assert (existsb is_panicked (cf_threads c) = true); [|congruence]. apply existsb_exists. exists Panicked.
  split; [by apply elem_of_list_In|done].
Qed.

Lemma acct_owned m ls c : 1 <= m -> spread m ls -> crun (initial m) ls = Some c ->
  (crashed c ∨ acct (cf_sh c) (cf_threads c)) ∧ (m <= 4000 ∨ ∃ owner, owned (cf_sh c) (cf_threads c) owner).
Proof.
  intros Hm Hsp H. revert c H. induction ls as [|l ls IH] using rev_ind; intros c H.
  { injection H as <-. split.
    - right. split; [|done]. by exists [].
    - right. exists (fun _ => ""%string). split; cbn; intros *; rewrite ?lookup_empty, ?lookup_nil; done. }
  apply crun_snoc in H as (c1 & H1 & H2). pose proof (no_panic_before _ _ _ H2) as Hnc1.
  assert (Hsp1 := spread_prefix _ _ _ Hsp). destruct (IH Hsp1 c1 H1) as [[?|HA] HO]; [done|].
  destruct (trees_reach m ls c1 Hm H1) as [HL HT]. destruct (asked_calls ls m c1 H1) as [I1 I2].
  apply cstep_cases in H2 as [(x & -> & ->)|(tid & ch & th & s' & th' & -> & Ht & Hs & ->)]; cbn [cf_sh cf_threads].
  - split.
    + right. destruct HA as [(gone & G1 & G2) HC].
      assert (Er : rooms (cf_threads c1 ++ [start_of x]) = rooms (cf_threads c1)).
      { unfold rooms. rewrite bind_app. cbn. destruct x; cbn; by rewrite app_nil_r. }
      assert (Ec : counteds (cf_threads c1 ++ [start_of x]) = counteds (cf_threads c1)).
      { unfold counteds. rewrite bind_app. cbn. destruct x; cbn; by rewrite app_nil_r. }
      assert (Ed : done_all (cf_threads c1 ++ [start_of x]) = done_all (cf_threads c1)).
      { unfold done_all. rewrite bind_app. cbn. destruct x; cbn; by rewrite app_nil_r. }
      split; [exists gone|]; rewrite ?Er, ?Ec, ?Ed; done.
    + destruct HO as [?|[owner HO]]; [by left|right]. exists owner. destruct HO as [O1 O2 O3]. split; [done|..].
      * intros tid th src a H. apply lookup_app_Some in H as [H|[_ H]]; [by eapply O2|].
        apply list_lookup_singleton_Some in H as [_ <-]. by destruct x.
      * intros a sg Ha. destruct (O3 a sg Ha) as [Q1 Q2]. split; [|done]. etrans; [exact Q1|]. unfold done_to. rewrite bind_app.
        apply submseteq_inserts_r. done.
  - assert (H64 : m <= 4000 ∨ ∀ e src a, th = PRoom e src a -> in64 (e_ts e) ∧ in64 (e_ts e + 4000) ∧
       len (filter (fun x => e_ts e - 4000 <= e_ts x <= e_ts e + 4000) (calls_to src ls)) <= 4000).
    { destruct Hsp1 as [?|Hsp1]; [by left|right]. intros e src a ->. apply (Hsp1 e src). eapply I2; [exact Ht|].
      cbn. rewrite decide_True by done. by constructor. }
    split.
    + assert (Hdec : th' = Panicked ∨ th' ≠ Panicked) by (destruct th'; by auto). destruct Hdec as [->|Hnp]; [left|right].
      { unfold crashed. cbn. apply elem_of_list_lookup. exists tid. apply list_lookup_insert. by eapply lookup_lt_Some. }
      eapply (acct_step m); eauto. intros e src a sg -> Ha.
      destruct (decide (m <= 4000)) as [Hle|Hgt].
      * eapply (fits_free m _ _ (fun _ => ""%string)); eauto; by left.
      * destruct HO as [?|[owner HO]]; [done|]. eapply (fits_free m _ _ owner); eauto. right.
        destruct H64 as [?|H64]; [done|]. destruct (H64 _ _ _ eq_refl) as (Q1 & Q2 & Q3). split; [done|]. split; [done|].
        etrans; [|exact Q3]. unfold len. apply inj_le. apply submseteq_length. apply filter_submseteq. apply I1.
    + destruct HO as [?|[owner HO]]; [by left|]. destruct H64 as [?|H64]; [by left|]. right.
      eapply (owned_step m); eauto. intros e src a E. destruct (H64 _ _ _ E) as (Q1 & Q2 & Q3). done.
Qed.

Theorem acct_reach m ls c : 1 <= m -> spread m ls -> crun (initial m) ls = Some c -> ¬ crashed c -> acct (cf_sh c) (cf_threads c).
Proof. intros Hm Hsp H Hnc. destruct (acct_owned m ls c Hm Hsp H) as [[?|?] _]; done. Qed.

(** A Put about to insert finds a free storage time *)
Lemma free_reach m ls c tid e src a sg : 1 <= m -> spread m ls -> crun (initial m) ls = Some c ->
  cf_threads c !! tid = Some (PRoom e src a) -> sh_heap (cf_sh c) !! a = Some sg ->
  ∃ f, 0 <= f < 4000 ∧ wrap64 (e_ts e + f) ∉ (held sg).*1.
Proof.
  intros Hm Hsp H Ht Ha. destruct (acct_owned m ls c Hm Hsp H) as [_ HO]. destruct (trees_reach m ls c Hm H) as [HL HT].
  destruct (asked_calls ls m c H) as [I1 I2].
  destruct (decide (m <= 4000)) as [Hle|Hgt].
  - eapply (fits_free m _ _ (fun _ => ""%string)); eauto; by left.
  - destruct HO as [?|[owner HO]]; [done|]. eapply (fits_free m _ _ owner); eauto. right.
    destruct Hsp as [?|Hsp]; [done|]. destruct (Hsp e src) as (Q1 & Q2 & Q3).
    { eapply I2; [exact Ht|]. cbn. rewrite decide_True by done. by constructor. }
    split; [done|]. split; [done|]. etrans; [|exact Q3]. unfold len. apply inj_le. apply submseteq_length. apply filter_submseteq. apply I1.
Qed.
