(** Truncations that keep out of the way of first Puts and of Metas: no crash and no lost write. *)
From stdpp Require Import prelude gmap strings.
From Coq Require Import ZifyBool ZifyNat.
From Verif.Base Require Import GoInt Envelope.
From Verif.Store Require Import Avl AvlProofs GoHeap GoHeapProofs Model Spec ProofsBase ProofsRoom.
From Verif.StoreConc Require Import Model Spec ProofsLock ProofsTree ProofsLin ProofsAcct.
Open Scope Z_scope.
#[local] Opaque find_fudge avl_put avl_remove avl_left get_tree lookup insert heap_pop heap_push.

Definition at_put (th : thread) : option (string * nat) :=
  match th with PWait _ src a | PIn _ src a | PRoom _ src a => Some (src, a) | _ => None end.
Definition ents (th : thread) : list (string * nat) :=
  match th with
  | TRange _ _ _ h | TLoop _ h => h.*2
  | TPush _ _ _ h k a | TWait _ h k a | TIn _ h k a | TCounted _ h k a | TDel _ h k a => (k, a) :: h.*2
  | _ => []
  end.
Definition pend (th : thread) : Z :=
  match th with
  | TRange n _ _ _ | TPush n _ _ _ _ _ | TLoop n _ | TDel n _ _ _ => Z.of_nat n
  | TWait n _ _ _ | TIn n _ _ _ | TCounted n _ _ _ => Z.of_nat n + 1
  | _ => 0
  end.
(** What the truncation's heap of sources has to do with the index *)
Definition covers (s : shared) (th : thread) : Prop :=
  match th with
  | TRange _ must visited _ | TPush _ must visited _ _ _ => must = sh_index s ∧ visited ≡ₚ (ents th).*1
  | _ => ∀ src a, sh_index s !! src = Some a -> src ∈ (ents th).*1
  end.

Record ordl (s : shared) (ths : list thread) : Prop := {
  od_inj : ∀ s1 s2 a, sh_index s !! s1 = Some a -> sh_index s !! s2 = Some a -> s1 = s2;
  od_put : ∀ tid th src a, ths !! tid = Some th -> at_put th = Some (src, a) -> sh_index s !! src = Some a;
  od_miss : ∀ tid e src, ths !! tid = Some (PMiss e src) -> sh_index s !! src = None;
  od_out : ∀ a sg, sh_heap s !! a = Some sg -> (∀ src, sh_index s !! src ≠ Some a) -> held sg = [];
  od_empty : ∀ src a sg, sh_index s !! src = Some a -> sh_heap s !! a = Some sg -> held sg = [] ->
    (∃ tid th, ths !! tid = Some th ∧ at_put th = Some (src, a)) ∨ (∃ tid n h, ths !! tid = Some (TDel n h src a));
  od_nodup : ∀ tid th, ths !! tid = Some th -> working th = true -> NoDup (ents th).*1;
  od_ents : ∀ tid th p, ths !! tid = Some th -> working th = true -> p ∈ ents th -> sh_index s !! p.1 = Some p.2;
  od_covers : ∀ tid th, ths !! tid = Some th -> working th = true -> covers s th;
  od_del : ∀ tid n h src a sg, ths !! tid = Some (TDel n h src a) -> sh_heap s !! a = Some sg -> held sg = [];
  od_sum : ∀ tid th, ths !! tid = Some th -> working th = true -> pend th <= len (held_in (sh_heap s)) + len (rooms ths);
  od_held : ∀ src a sg, sh_index s !! src = Some a -> sh_heap s !! a = Some sg -> (held sg).*2 ⊆+ done_to src ths;
  od_calm : calm s ths
}.

(** The three kinds of step *)
Inductive kind (m : Z) (s : shared) (th : thread) (s' : shared) (th' : thread) : Prop :=
| k_plain : sh_index s' = sh_index s -> (∀ e src, th ≠ PMiss e src) -> (∀ n h src a, th ≠ TDel n h src a) ->
    (sh_heap s' = sh_heap s ∨ ∃ a sg sg', sh_heap s !! a = Some sg ∧ sh_heap s' = <[a := sg']> (sh_heap s) ∧ edit m a th th' sg sg') ->
    kind m s th s' th'
| k_new e src : th = PMiss e src -> th' = PWait e src (sh_next s) ->
    sh_heap s' = <[sh_next s := mk_cs avl_new meta_zero None ∅]> (sh_heap s) ->
    sh_index s' = <[src := sh_next s]> (sh_index s) -> kind m s th s' th'
| k_drop n h src a sg sg' : th = TDel n h src a -> th' = TLoop n h -> sh_heap s !! a = Some sg ->
    sh_heap s' = <[a := sg']> (sh_heap s) -> cs_tree sg' = cs_tree sg ->
    sh_index s' = delete src (sh_index s) -> kind m s th s' th'.

Lemma step_kind m tid ch s th s' th' ths : 1 <= m -> trees m s ths ->
  tstep tid ch s th = Some (s', th') -> kind m s th s' th'.
Proof.
  intros Hm HT H. pose proof (tstep_tree m _ _ _ _ _ _ _ Hm HT H) as HS.
  assert (Hc : (∃ e src, th = PMiss e src) ∨ (∃ n h src a, th = TDel n h src a) ∨
    (∀ e src, th ≠ PMiss e src) ∧ (∀ n h src a, th ≠ TDel n h src a)).
  { destruct th; eauto 10; right; right; done. }
  destruct Hc as [(e & src & ->)|[(n & h & src & a & ->)|[H1 H2]]].
  - cbn [tstep] in H. injection H as <- <-. by eapply k_new.
  - cbn [tstep] in H. apply bind_Some in H as (sg & Ha & H). injection H as <- <-. by eapply k_drop.
  - apply k_plain; try done.
    + destruct (tstep_index _ _ _ _ _ _ H) as [E|[(e & src & -> & _)|(n & h & src & a & -> & _)]]; [done|..]; naive_solver.
    + destruct HS as [E|e src -> _ _|a sg sg' Ha E _ HE]; [by left|naive_solver|right; eauto 10].
Qed.

Lemma linsert_nonempty k (e : envelope) l : linsert k e l ≠ [].
Proof. destruct l as [|[k' v] l]; cbn; [done|]. repeat case_match; done. Qed.

(** A Put keeps its storage until it has inserted *)
Lemma step_at_put m tid ch s th s' th' ths src a : trees m s ths -> tstep tid ch s th = Some (s', th') ->
  at_put th = Some (src, a) -> th' ≠ Panicked ->
  at_put th' = Some (src, a) ∨ (∃ sg', sh_heap s' !! a = Some sg' ∧ held sg' ≠ []).
Proof.
  intros HT H Ha Hnp. destruct th; try discriminate Ha; cbn [at_put] in Ha; injection Ha as -> ->; cbn [tstep] in H; step_cases H.
  all: try (by destruct Hnp).
  all: try (left; reflexivity).
  right. apply bind_Some in E as (t' & Hput & E). apply bind_Some in E as ([k v] & Hl & E). injection E as <- <-.
  destruct (put_tree e (cs_tree x)) as (t2 & k2 & v2 & l2 & E1 & E2 & E3 & E4 & E5); [by eapply (tr_ok _ _ _ HT)|].
  rewrite Hput in E1. injection E1 as <-. eexists. cbn [set_heap sh_heap]. rewrite lookup_insert. split; [reflexivity|].
  unfold held. cbn [cs_tree]. rewrite E5. done.
Qed.
(** A truncation that leaves a storage empty is about to drop the source *)
Lemma step_counted m tid ch s n h src a s' th' ths : trees m s ths -> tstep tid ch s (TCounted n h src a) = Some (s', th') ->
  th' ≠ Panicked -> ∃ sg sg', sh_heap s !! a = Some sg ∧ sh_heap s' = <[a:=sg']> (sh_heap s) ∧
    ((th' = TDel n h src a ∧ held sg' = []) ∨ (∃ k, th' = TLoop n (heap_push fst h (k, (src, a)))) ∧ held sg' ≠ []).
Proof.
  intros HT H Hnp. cbn [tstep] in H; step_cases H; try (by destruct Hnp).
  all: match goal with E : mbind _ (avl_left _) = Some _ |- _ => apply left_remove in E as (k0 & v0 & l0 & Eh1 & Eh2 & Hok0); [|by eapply (tr_ok _ _ _ HT)] end.
  all: eexists _, _; split; [eassumption|]; split; [reflexivity|].
  - left. split; [done|]. unfold held. cbn [cs_tree]. apply avl_size in Hok0. apply nil_length_inv. lia.
  - right. split; [eauto|]. unfold held. cbn [cs_tree]. intros E'. apply avl_size in Hok0. rewrite E' in Hok0. cbn [length] in Hok0. lia.
Qed.

Lemma held_in_nil h : (∀ a sg, h !! a = Some sg -> held sg = []) -> held_in h = [].
Proof.
  intros H. unfold held_in. assert (Hf : ∀ p, p ∈ map_to_list h -> held p.2 = []).
  { intros [a sg] Hp. apply elem_of_map_to_list in Hp. by eapply H. }
  induction (map_to_list h) as [|p l IH]; [done|]. cbn. rewrite (Hf p) by constructor. rewrite IH; [done|].
  intros. apply Hf. by constructor.
Qed.
Lemma rooms_nil ths : (∀ tid e src a, ths !! tid ≠ Some (PRoom e src a)) -> rooms ths = [].
Proof.
  intros H. unfold rooms. induction ths as [|th ths IH]; [done|]. cbn. rewrite IH by (intros tid; apply (H (S tid))).
  specialize (H 0%nat). Transparent lookup. cbn in H. Opaque lookup. destruct th; try done. naive_solver.
Qed.
Lemma counteds_nil ths : (∀ tid n h src a, ths !! tid ≠ Some (TCounted n h src a)) -> counteds ths = [].
Proof.
  intros H. unfold counteds. induction ths as [|th ths IH]; [done|]. cbn. rewrite IH by (intros tid; apply (H (S tid))).
  specialize (H 0%nat). Transparent lookup. cbn in H. Opaque lookup. destruct th; try done. naive_solver.
Qed.

(** While a truncation is at work, a source in the index is empty only if it is about to be dropped *)
Lemma full_sources s ths tid th : ordl s ths -> orderly (mk_cfg s ths) -> ths !! tid = Some th -> working th = true ->
  ∀ src a sg, sh_index s !! src = Some a -> sh_heap s !! a = Some sg -> held sg = [] -> ∃ n h, th = TDel n h src a.
Proof.
  intros HO Hord Ht Hw src a sg Hi Ha He. destruct (Hord tid th Ht Hw) as (O1 & O2 & _). cbn [cf_threads] in *.
  destruct (od_empty _ _ HO _ _ _ Hi Ha He) as [(tid2 & th2 & H2 & Hp)|(tid2 & n & h & H2)].
  - exfalso. apply (O1 src th2).
    + by eapply elem_of_list_lookup_2.
    + destruct th2; try discriminate Hp; cbn in *; injection Hp as -> _; by apply bool_decide_eq_true.
    + unfold visible_to. cbn [cf_sh]. rewrite Hi, Ha, He. done.
  - assert (tid2 = tid) as -> by (eapply O2; [exact H2|done]). exists n, h. congruence.
Qed.
(** ... and no source is new *)
Lemma no_miss s ths tid th : ordl s ths -> orderly (mk_cfg s ths) -> ths !! tid = Some th -> working th = true ->
  ∀ tid2 e src, ths !! tid2 ≠ Some (PMiss e src).
Proof.
  intros HO Hord Ht Hw tid2 e src H2. destruct (Hord tid th Ht Hw) as (O1 & _ & _). cbn [cf_threads] in *.
  apply (O1 src (PMiss e src)); [by eapply elem_of_list_lookup_2|by apply bool_decide_eq_true|].
  unfold visible_to. cbn [cf_sh]. by rewrite (od_miss _ _ HO _ _ _ H2).
Qed.
(** ... so the heap never runs dry *)
Lemma not_dry s ths tid n : ordl s ths -> ths !! tid = Some (TLoop (S n) []) -> False.
Proof.
  intros HO Ht. pose proof (od_sum _ _ HO _ _ Ht eq_refl) as Hs. pose proof (od_covers _ _ HO _ _ Ht eq_refl) as Hc. cbn in Hs, Hc.
  rewrite (held_in_nil (sh_heap s)) in Hs. 2: { intros a sg Ha. eapply (od_out _ _ HO); [exact Ha|]. intros src Hi. specialize (Hc _ _ Hi). by inversion Hc. }
  rewrite (rooms_nil ths) in Hs. 2: { intros tid2 e src a H2. assert (Hi := od_put _ _ HO _ _ _ _ H2 eq_refl). specialize (Hc _ _ Hi). by inversion Hc. }
  unfold len in Hs. cbn in Hs. lia.
Qed.

(** ** What a step keeps *)
Record setting (m : Z) (tid : nat) (ch : choice) (s : shared) (th : thread) (s' : shared) (th' : thread) (ths : list thread) : Prop := {
  se_m : 1 <= m; se_locks : locks s ths; se_trees : trees m s ths; se_acct : acct s ths; se_ordl : ordl s ths;
  se_ord : orderly (mk_cfg s ths); se_th : ths !! tid = Some th; se_step : tstep tid ch s th = Some (s', th');
  se_ord' : orderly (mk_cfg s' (<[tid:=th']> ths));
  se_free : ∀ e src a sg, th = PRoom e src a -> sh_heap s !! a = Some sg -> ∃ f, 0 <= f < 4000 ∧ wrap64 (e_ts e + f) ∉ (held sg).*1 }.

Lemma fresh_next s ths a sg : locks s ths -> sh_heap s !! a = Some sg -> a ≠ sh_next s.
Proof. intros HL Ha ->. pose proof (lk_fresh _ _ HL _ _ Ha). lia. Qed.
Lemma fresh_index s ths src : locks s ths -> sh_index s !! src ≠ Some (sh_next s).
Proof. intros HL Hi. destruct (lk_index _ _ HL _ _ Hi) as [sg Ha]. by eapply fresh_next in Ha. Qed.

Lemma no_panic_here m tid ch s th s' th' ths : setting m tid ch s th s' th' ths -> th' ≠ Panicked.
Proof.
  intros [Hm HL HT HA HO Hord Ht H _ _] Hd. assert (HC := od_calm _ _ HO).
  destruct th; cbn [tstep] in H; step_cases H; try discriminate Hd.
  - match goal with E : mbind _ (avl_left _) = None |- _ => apply left_remove_panic in E as E1'; [|by eapply (tr_ok _ _ _ HT)] end.
    match goal with Ha : sh_heap s !! _ = Some _ |- _ => destruct (tr_ok _ _ _ HT _ _ Ha) as [Hok _] end.
    apply avl_size in Hok. rewrite E1' in Hok. cbn in Hok. rewrite (tr_max _ _ _ HT) in E. lia.
  - destruct (put_tree e (cs_tree x)) as (t2 & k2 & v2 & l2 & E1 & E2 & E3 & E4 & E5); [by eapply (tr_ok _ _ _ HT)|].
    rewrite E1 in E. cbn [mbind option_bind] in E. by rewrite E4 in E.
  - destruct (get_tree_known q (cs_tree x)) as [r Hr]; [|congruence]. by eapply (cm_query _ _ HC).
  - match goal with Hx : ths !! tid = Some (MFill (?k :: _) _) |- _ => destruct (cm_keys _ _ HC _ _ k Hx) as [v Hv]; [cbn; constructor|congruence] end.
  - (* an empty source in the index *)
    rewrite avl_left_ok in E0. destruct (held x) as [|p l] eqn:Eh; [|unfold held in Eh; by rewrite Eh in E0].
    assert (Hi := od_ents _ _ HO _ _ (k, a) Ht eq_refl (elem_of_list_here _ _)). cbn in Hi.
    destruct (full_sources _ _ _ _ HO Hord Ht eq_refl _ _ _ Hi H0 Eh) as (? & ? & ?). done.
  - (* the heap is empty *)
    destruct h as [|p h]; [by eapply not_dry|]. clear -E0. Transparent heap_pop.
    unfold heap_pop in E0. unfold raw_pop in E0. Opaque heap_pop.
    destruct (last _) eqn:El in E0; [done|]. apply last_None in El.
    apply (f_equal length) in El. rewrite hdown_length, hswap_length in El. done.
  - match goal with E : mbind _ (avl_left _) = Some _ |- _ => apply left_remove in E as (k0 & v0 & l0 & Eh1 & Eh2 & Hok0); [|by eapply (tr_ok _ _ _ HT)] end.
    apply avl_size in Hok0 as Hs. rewrite avl_left_ok in E1. destruct (inorder (av_root a0)) eqn:Ex in E1; [|done]. rewrite Ex in Hs. cbn in Hs. lia.
  - match goal with E : mbind _ (avl_left _) = None |- _ => apply left_remove_panic in E as E1'; [|by eapply (tr_ok _ _ _ HT)] end.
    pose proof (tr_some _ _ _ HT _ _ _ _ _ _ Ht H0) as Hs. unfold size_of, held in Hs. rewrite E1' in Hs. cbn in Hs. lia.
Qed.

(** How the pieces move: sums *)
Lemma sum_step m tid ch s th s' th' ths : setting m tid ch s th s' th' ths ->
  len (held_in (sh_heap s)) + len (rooms ths) - d_counted th <= len (held_in (sh_heap s')) + len (rooms (<[tid:=th']> ths)).
Proof.
  intros HS. pose proof (no_panic_here _ _ _ _ _ _ _ _ HS) as Hnp. destruct HS as [Hm HL HT HA HO Hord Ht H _ Hfree].
  destruct (counts_upd ths tid th th' Ht) as [-> _].
  assert (Hdr : ∀ t, 0 <= d_room t <= 1) by (intros []; cbn; lia).
  assert (Hdc : ∀ t, 0 <= d_counted t <= 1) by (intros []; cbn; lia).
  pose proof (Hdr th') as B1. pose proof (Hdc th) as B2.
  assert (Hcut : ∀ a sg sg' k v l, sh_heap s !! a = Some sg -> held sg = (k, v) :: l -> held sg' = l ->
            len (held_in (<[a:=sg']> (sh_heap s))) = len (held_in (sh_heap s)) - 1).
  { intros a sg sg' k v l Ha E E'. destruct (held_upd (sh_heap s) a sg sg' Ha) as (r2 & E2 & E3).
    rewrite (len_perm _ _ E2), (len_perm _ _ E3), !len_app, E, E'. unfold len. cbn. lia. }
  destruct (is_room th) as [(e & src & a & ->)|Hnr].
  - cbn [d_room d_counted]. pose proof (room_done _ _ _ _ _ _ _ _ _ _ HT H) as ->. cbn [d_room].
    pose proof (tstep_tree m _ _ _ _ _ _ _ Hm HT H) as HS.
    cbn [tstep] in H. apply bind_Some in H as (sg & Ha & H). destruct (Hfree _ _ _ _ eq_refl Ha) as (f & Hf & Hk).
    destruct (put_tree e (cs_tree sg)) as (t2 & k2 & v2 & l2 & E1 & E2 & E3 & E4 & E5); [by eapply (tr_ok _ _ _ HT)|].
    destruct (find_fudge_spec (Z.to_nat 4000) 0 (e_ts e) (cs_tree sg)) as (F1 & F2 & F3); [by eapply (tr_ok _ _ _ HT)|].
    cbv zeta in H. rewrite E1 in H. cbn [mbind option_bind] in H. rewrite E4 in H. injection H as <-.
    set (g := find_fudge _ _ _ _) in *.
    assert (Hnk : wrap64 (e_ts e + g) ∉ (held sg).*1).
    { apply F3. destruct (decide (g < 4000)); [lia|]. exfalso. apply Hk. apply F2. lia. }
    cbn [set_heap sh_heap].
    match goal with |- context [<[a:=?y]> (sh_heap s)] => destruct (held_upd (sh_heap s) a sg y Ha) as (r2 & R2 & R3) end.
    rewrite (len_perm _ _ R2), (len_perm _ _ R3), !len_app. unfold held at 2. cbn [cs_tree]. rewrite E3. fold (held sg).
    rewrite (len_perm _ _ (linsert_new_perm _ e _ Hnk)). unfold len. cbn [length]. lia.
  - assert (Er : d_room th = 0) by (destruct th; cbn; try done; naive_solver).
    destruct (step_kind m _ _ _ _ _ _ _ Hm HT H) as [_ _ _ [Eh|(a & sg & sg' & Ha & Eh & HE)]|e src -> -> Eh _|n h src a sg sg' -> -> Ha Eh Et _].
    + rewrite Eh. lia.
    + rewrite Eh. destruct HE as [E|e src k x l -> -> _ E1 E2 _|e src f -> _ _ _ _ _ _|n h src k x l -> _ _ E1 E2].
      * destruct (held_upd (sh_heap s) a sg sg' Ha) as (r2 & E2 & E3). rewrite (len_perm _ _ E2), (len_perm _ _ E3), !len_app.
        unfold held. rewrite E. lia.
      * rewrite (Hcut _ _ _ _ _ _ Ha E1 E2). cbn [d_room]. lia.
      * naive_solver.
      * rewrite (Hcut _ _ _ _ _ _ Ha E1 E2). cbn [d_counted]. lia.
    + assert (En : sh_heap s !! sh_next s = None) by (destruct (sh_heap s !! sh_next s) eqn:E; [by eapply fresh_next in E|done]).
      rewrite Eh, (len_perm _ _ (held_new (sh_heap s) (sh_next s) (mk_cs avl_new meta_zero None ∅) En eq_refl)). lia.
    + destruct (held_upd (sh_heap s) a sg sg' Ha) as (r2 & E2 & E3). rewrite Eh, (len_perm _ _ E2), (len_perm _ _ E3), !len_app.
      unfold held. rewrite Et. lia.
Qed.

(** The truncation's own step *)
Lemma fmap_snd_push (h : list centry) p : (heap_push fst h p).*2 ≡ₚ p.2 :: h.*2.
Proof. rewrite heap_push_perm. done. Qed.

Lemma own_step m tid ch s th s' th' ths : setting m tid ch s th s' th' ths -> working th' = true ->
  NoDup (ents th').*1 ∧ (∀ p, p ∈ ents th' -> sh_index s' !! p.1 = Some p.2) ∧ covers s' th' ∧ (th = TStart ∨ working th = true).
Proof.
  intros HS Hw. destruct HS as [Hm HL HT HA HO Hord Ht H _ _].
  assert (Hold : working th = true -> NoDup (ents th).*1 ∧ (∀ p, p ∈ ents th -> sh_index s !! p.1 = Some p.2) ∧ covers s th).
  { intros Hw0. split; [by eapply (od_nodup _ _ HO)|]. split; [intros p; by eapply (od_ents _ _ HO)|by eapply (od_covers _ _ HO)]. }
  assert (Hfull : working th = true -> ∀ src a sg, sh_index s !! src = Some a -> sh_heap s !! a = Some sg -> held sg = [] -> ∃ n h, th = TDel n h src a).
  { intros Hw0. by eapply full_sources. }
  destruct th; cbn [tstep] in H; step_cases H; try discriminate Hw.
  all: try (destruct (Hold eq_refl) as (N & I & C); specialize (Hfull eq_refl)).
  all: try (split; [exact N|]; split; [exact I|]; split; [exact C|by right]).
  - split; [constructor|]. split; [intros p Hp; by inversion Hp|]. split; [|by left]. cbn. done.
  - (* TRange visits a key *) cbn [ents fmap list_fmap covers] in *. destruct C as [-> C]. split; [|split; [|split; [|by right]]].
    + constructor; [|done]. rewrite <-C. done.
    + intros pp Hp. apply elem_of_cons in Hp as [->|Hp]; [done|by apply I].
    + split; [done|]. by rewrite C.
  - (* TRange ends *) cbn [ents covers] in *. destruct C as [-> C]. split; [done|]. split; [done|]. split; [|by right].
    intros src a Ha. unfold may_end in *. apply bool_decide_eq_true in E0.
    destruct (E0 src a Ha) as [Hv|Hv]; [by rewrite <-C|done].
  - (* TPush *) cbn [ents covers fmap list_fmap] in *. destruct C as [-> C]. rewrite (fmap_snd_push h (z, (k, a))). cbn [snd].
    split; [done|]. split; [|split; [|by right]].
    + intros pp Hp. rewrite fmap_snd_push in Hp. cbn [snd] in Hp. by apply I.
    + split; [done|]. done.
  - (* TLoop pops *) cbn [ents covers fmap list_fmap] in *. apply heap_pop_perm in E0.
    assert (Ep : h.*2 ≡ₚ (s0, n1) :: l.*2) by (rewrite E0; done).
    split; [|split; [|split; [|by right]]].
    + rewrite Ep in N. done.
    + intros pp Hp. apply I. by rewrite Ep.
    + intros src a Ha. specialize (C _ _ Ha). rewrite Ep in C. done.
  - (* TIn finds nothing *) exfalso. assert (Hi : sh_index s !! src = Some a) by (apply (I (src, a)); constructor).
    destruct (Hfull _ _ _ Hi H0) as (? & ? & ?); [|done]. unfold held. destruct (tr_ok _ _ _ HT _ _ H0) as [Hok _].
    apply avl_size in Hok. apply nil_length_inv. lia.
  - (* TCounted, more left *) cbn [ents covers fmap list_fmap] in *. rewrite (fmap_snd_push h (z, (src, a))). cbn [snd].
    split; [done|]. split; [|split; [|by right]].
    + intros pp Hp. rewrite fmap_snd_push in Hp. by apply I.
    + intros x2 a2 Ha. rewrite fmap_snd_push. by eapply C.
  - (* TDel *) cbn [ents covers fmap list_fmap set_heap set_idx sh_index] in *. apply NoDup_cons in N as [N1 N2].
    split; [done|]. split; [|split; [|by right]].
    + intros pp Hp. rewrite lookup_delete_ne; [apply I; by constructor|]. intros ->. apply N1. apply elem_of_list_fmap. by exists pp.
    + intros x2 a2 Ha. apply lookup_delete_Some in Ha as [Hne Ha]. specialize (C _ _ Ha). cbn [fst] in C.
      apply elem_of_cons in C as [->|C]; done.
Qed.

(** Which storages a step may empty or fill *)
Lemma edited_index m a s ths tid th th' sg sg' : ordl s ths -> ths !! tid = Some th -> edit m a th th' sg sg' ->
  held sg' = held sg ∨ ∃ src, sh_index s !! src = Some a.
Proof.
  intros HO Ht [E|e src k x l -> _ _ _ _ _|e src f -> _ _ _ _ _ _|n h src k x l -> _ _ _ _].
  - left. unfold held. by rewrite E.
  - right. exists src. by eapply (od_put _ _ HO).
  - right. exists src. by eapply (od_put _ _ HO).
  - right. exists src. apply (od_ents _ _ HO _ _ (src, a) Ht eq_refl). constructor.
Qed.

Lemma step_at_put_back tid ch s th s' th' src a : tstep tid ch s th = Some (s', th') -> at_put th' = Some (src, a) ->
  at_put th = Some (src, a) ∨ sh_index s !! src = Some a ∨ (∃ e, th = PMiss e src ∧ a = sh_next s).
Proof.
  intros H Ha. destruct th; cbn [tstep] in H; step_cases H; try discriminate Ha; cbn [at_put] in *; injection Ha as <- <-; eauto.
Qed.
Lemma enter_del m tid ch s th s' th' ths n h src a sg : trees m s ths -> tstep tid ch s th = Some (s', th') -> th' = TDel n h src a ->
  sh_heap s' !! a = Some sg -> held sg = [].
Proof.
  intros HT H E Ha. assert (∃ n h src a, th = TCounted n h src a) as (n0 & h0 & src0 & a0 & ->).
  { destruct th; cbn [tstep] in H; step_cases H; try discriminate E; eauto. }
  destruct (step_counted _ _ _ _ _ _ _ _ _ _ _ HT H) as (x & x' & _ & Eh & [[E1 E2]|[[k E1] _]]); [by subst| |by subst].
  rewrite E1 in E. injection E as -> -> -> ->. rewrite Eh, lookup_insert in Ha. by injection Ha as <-.
Qed.

Lemma ordl_step m tid ch s th s' th' ths : setting m tid ch s th s' th' ths -> ordl s' (<[tid:=th']> ths).
Proof.
  intros HS. pose proof (no_panic_here _ _ _ _ _ _ _ _ HS) as Hnp. pose proof (sum_step _ _ _ _ _ _ _ _ HS) as Hsum.
  pose proof (own_step _ _ _ _ _ _ _ _ HS) as Hown. destruct HS as [Hm HL HT HA HO Hord Ht H Hord' Hfree].
  pose proof (step_kind m _ _ _ _ _ _ _ Hm HT H) as HK.
  assert (Hlt : (tid < length ths)%nat) by (by eapply lookup_lt_Some).
  (* another truncation is at work *)
  assert (Hother : ∀ tid2 th2, tid2 ≠ tid -> ths !! tid2 = Some th2 -> working th2 = true ->
     working th = false ∧ sh_index s' = sh_index s).
  { intros tid2 th2 Hne H2 Hw2. destruct (Hord tid2 th2 H2 Hw2) as (_ & O2 & _). cbn in O2.
    assert (Hwf : working th = false). { destruct (working th) eqn:E; [|done]. by destruct (Hne (eq_sym (O2 _ _ Ht E))). }
    split; [done|]. destruct HK as [E _ _ _|e src -> _ _ _|n h src a sg sg' -> _ _ _ _ _]; [done| |done].
    exfalso. by eapply (no_miss s ths tid2 th2 HO Hord H2 Hw2). }
  split.
  - (* inj *) intros s1 s2 a H1 H2. destruct HK as [E _ _ _|e src _ _ _ E|n h src b sg sg' _ _ _ _ _ E]; rewrite E in H1, H2.
    + by eapply (od_inj _ _ HO).
    + apply lookup_insert_Some in H1 as [[<- <-]|[_ H1]]; apply lookup_insert_Some in H2 as [[<- Hx]|[_ H2]]; subst; try done.
      * by eapply fresh_index in H2.
      * by eapply fresh_index in H1.
      * by eapply (od_inj _ _ HO).
    + apply lookup_delete_Some in H1 as [_ H1]. apply lookup_delete_Some in H2 as [_ H2]. by eapply (od_inj _ _ HO).
  - (* put *) intros tid2 th2 src a H2 Hp.
    assert (Hi : sh_index s !! src = Some a ∨ ∃ e, th = PMiss e src ∧ a = sh_next s).
    { apply insert_Some in H2 as [[<- <-]|[_ H2]]; [|left; by eapply (od_put _ _ HO)].
      destruct (step_at_put_back _ _ _ _ _ _ _ _ H Hp) as [Hx|[Hx|Hx]]; [left; by eapply (od_put _ _ HO)|by left|by right]. }
    destruct HK as [E H3 _ _|e src2 -> -> _ E|n h src2 b sg sg' -> -> Hb _ _ E]; rewrite E.
    + destruct Hi as [Hi|(e & -> & _)]; [done|]. by destruct (H3 e src).
    + destruct Hi as [Hi|(e2 & [= -> ->] & ->)]; [|by rewrite lookup_insert].
      rewrite lookup_insert_ne; [done|]. intros ->. rewrite (od_miss _ _ HO _ _ _ Ht) in Hi. done.
    + destruct Hi as [Hi|(e & ? & _)]; [|done]. rewrite lookup_delete_ne; [done|]. intros ->.
      apply insert_Some in H2 as [[_ <-]|[_ H2]]; [discriminate Hp|].
      destruct (Hord _ _ Ht eq_refl) as (O1 & _ & _). cbn in O1. eapply (O1 src th2).
      * by eapply elem_of_list_lookup_2.
      * destruct th2; try discriminate Hp; cbn in *; injection Hp as -> _; by apply bool_decide_eq_true.
      * unfold visible_to. cbn [cf_sh]. rewrite Hi. destruct (sh_heap s !! a) as [sga|] eqn:Ea; [|done].
        pose proof (od_ents _ _ HO _ _ (src, b) Ht eq_refl (elem_of_list_here _ _)) as Hy. cbn in Hy. rewrite Hy in Hi. injection Hi as <-.
        rewrite (od_del _ _ HO _ _ _ _ _ _ Ht Ea). done.
  - (* miss *) intros tid2 e src H2.
    assert (Hi : sh_index s !! src = None).
    { apply insert_Some in H2 as [[<- Eth]|[_ H2]]; [by eapply enter_miss|by eapply (od_miss _ _ HO)]. }
    destruct HK as [E _ _ _|e1 src1 -> -> _ E|n h src1 b sg sg' _ _ _ _ _ E]; rewrite E; [done| |].
    + rewrite lookup_insert_ne; [done|]. intros ->.
      (* two goroutines past the initialisation mutex *)
      apply insert_Some in H2 as [[_ ?]|[Hne H2]]; [done|].
      pose proof (lk_i _ _ HL _ _ H2 eq_refl). pose proof (lk_i _ _ HL _ _ Ht eq_refl). congruence.
    + rewrite lookup_delete_None. by right.
  - (* out *) intros a sg Ha Hi. destruct HK as [E _ _ HK|e src -> -> Eh E|n h src b sgb sgb' -> -> Hb Eh Et E].
    + rewrite E in Hi. destruct HK as [Eh|(b & sgb & sgb' & Hb & Eh & HE)]; rewrite Eh in Ha; [by eapply (od_out _ _ HO)|].
      apply lookup_insert_Some in Ha as [[<- <-]|[_ Ha]]; [|by eapply (od_out _ _ HO)].
      destruct (edited_index _ _ _ _ _ _ _ _ _ HO Ht HE) as [->|[src Hx]]; [by eapply (od_out _ _ HO)|by destruct (Hi src)].
    + rewrite Eh in Ha. apply lookup_insert_Some in Ha as [[<- <-]|[Hne Ha]]; [done|].
      eapply (od_out _ _ HO); [exact Ha|]. intros x Hx. apply (Hi x). rewrite E. rewrite lookup_insert_ne; [done|].
      intros ->. rewrite (od_miss _ _ HO _ _ _ Ht) in Hx. done.
    + rewrite Eh in Ha. destruct (decide (a = b)) as [->|Hne].
      * rewrite lookup_insert in Ha. injection Ha as <-. unfold held. rewrite Et. by eapply (od_del _ _ HO).
      * rewrite lookup_insert_ne in Ha by done. eapply (od_out _ _ HO); [exact Ha|]. intros x Hx. apply (Hi x). rewrite E.
        rewrite lookup_delete_ne; [done|]. intros ->.
        pose proof (od_ents _ _ HO _ _ (x, b) Ht eq_refl (elem_of_list_here _ _)) as Hy. cbn in Hy. congruence.
  - (* empty *) intros src a sg Hi Ha He.
    assert (Hmove : ∀ sg0, sh_index s !! src = Some a -> sh_heap s !! a = Some sg0 -> held sg0 = [] -> (∀ n h, th ≠ TDel n h src a) ->
      (∃ tid2 th2, <[tid:=th']> ths !! tid2 = Some th2 ∧ at_put th2 = Some (src, a)) ∨ (∃ tid2 n h, <[tid:=th']> ths !! tid2 = Some (TDel n h src a))).
    { intros sg0 Hi0 Ha0 He0 Hnd. destruct (od_empty _ _ HO _ _ _ Hi0 Ha0 He0) as [(tid2 & th2 & H2 & Hp)|(tid2 & n & h & H2)].
      - destruct (decide (tid2 = tid)) as [->|Hne]; [|left; exists tid2, th2; by rewrite list_lookup_insert_ne].
        rewrite Ht in H2. injection H2 as <-. destruct (step_at_put _ _ _ _ _ _ _ _ _ _ HT H Hp Hnp) as [Hp'|(sgx & Hx & Hx')].
        + left. exists tid, th'. by rewrite list_lookup_insert.
        + exfalso. congruence.
      - right. destruct (decide (tid2 = tid)) as [->|Hne]; [|exists tid2, n, h; by rewrite list_lookup_insert_ne].
        rewrite Ht in H2. injection H2 as ->. by destruct (Hnd n h). }
    destruct HK as [E _ Hnd HK|e src1 -> -> Eh E|n h src1 b sgb sgb' -> -> Hb Eh Et E].
    + rewrite E in Hi. destruct HK as [Eh|(b & sgb & sgb' & Hb & Eh & HE)]; rewrite Eh in Ha; [by eapply Hmove|].
      apply lookup_insert_Some in Ha as [[<- <-]|[_ Ha]]; [|by eapply Hmove].
      destruct HE as [Et|e src1 k x l -> -> _ E1 E2 _|e src1 f _ _ _ _ _ E2 _|n h src1 k x l -> _ _ E1 E2].
      * eapply Hmove; [done|exact Hb| |done]. unfold held in *. by rewrite <-Et.
      * left. exists tid, (PRoom e src1 b). rewrite list_lookup_insert by done. split; [done|]. cbn.
        rewrite (od_inj _ _ HO src1 src b); [done| |done]. by eapply (od_put _ _ HO).
      * rewrite E2 in He. by apply linsert_nonempty in He.
      * right. destruct (step_counted _ _ _ _ _ _ _ _ _ _ _ HT H Hnp) as (sgx & sgx' & Hx & Ex & [[-> _]|[_ Hx']]).
        -- exists tid, n, h. rewrite list_lookup_insert by done.
           rewrite (od_inj _ _ HO src1 src b); [done| |done]. apply (od_ents _ _ HO _ _ (src1, b) Ht eq_refl). constructor.
        -- exfalso. rewrite Ex in Eh. apply (f_equal (lookup b)) in Eh. rewrite !lookup_insert in Eh. injection Eh as ->. done.
    + rewrite E in Hi. rewrite Eh in Ha. apply lookup_insert_Some in Hi as [[<- <-]|[Hne Hi]].
      * left. exists tid, (PWait e src1 (sh_next s)). by rewrite list_lookup_insert.
      * rewrite lookup_insert_ne in Ha; [by eapply Hmove|]. intros <-. by eapply fresh_index in Hi.
    + rewrite E in Hi. apply lookup_delete_Some in Hi as [Hne Hi].
      assert (Hne' : a ≠ b).
      { intros ->. apply Hne. eapply (od_inj _ _ HO); [|exact Hi]. apply (od_ents _ _ HO _ _ (src1, b) Ht eq_refl). constructor. }
      rewrite Eh, lookup_insert_ne in Ha by done. eapply Hmove; [done|exact Ha|done|]. intros ? ? [= _ _ -> _]. done.
  - (* nodup *) intros tid2 th2 H2 Hw. apply insert_Some in H2 as [[<- <-]|[_ H2]]; [by apply Hown|by eapply (od_nodup _ _ HO)].
  - (* ents *) intros tid2 th2 p H2 Hw Hp. apply insert_Some in H2 as [[<- <-]|[Hne H2]]; [by apply Hown|].
    destruct (Hother tid2 th2) as [_ ->]; [done..|]. by eapply (od_ents _ _ HO).
  - (* covers *) intros tid2 th2 H2 Hw. apply insert_Some in H2 as [[<- <-]|[Hne H2]]; [by apply Hown|].
    destruct (Hother tid2 th2) as [_ Ei]; [done..|]. pose proof (od_covers _ _ HO _ _ H2 Hw) as Hc.
    unfold covers in *. by destruct th2; rewrite ?Ei.
  - (* del *) intros tid2 n h src a sg H2 Ha. apply insert_Some in H2 as [[<- Eth]|[Hne H2]]; [by eapply enter_del|].
    destruct HK as [E _ _ [Eh|(b & sgb & sgb' & Hb & Eh & HE)]|e src1 -> -> Eh E|n1 h1 src1 b sgb sgb' -> -> Hb Eh Et E]; rewrite Eh in Ha.
    + by eapply (od_del _ _ HO).
    + apply lookup_insert_Some in Ha as [[<- <-]|[_ Ha]]; [|by eapply (od_del _ _ HO)].
      assert (Et : cs_tree sgb' = cs_tree sgb) by (eapply (edit_alone m); [exact HL|exact Ht|exact Hb|exact HE|exact H2|congruence|cbn; auto]).
      unfold held. rewrite Et. by eapply (od_del _ _ HO).
    + apply lookup_insert_Some in Ha as [[<- <-]|[_ Ha]]; [done|by eapply (od_del _ _ HO)].
    + apply lookup_insert_Some in Ha as [[<- <-]|[_ Ha]]; [|by eapply (od_del _ _ HO)].
      unfold held. rewrite Et. by eapply (od_del _ _ HO).
  - (* sum *) intros tid2 th2 H2 Hw. apply insert_Some in H2 as [[<- <-]|[Hne H2]].
    + destruct (Hown Hw) as (_ & _ & _ & [->|Hw0]).
      * cbn [tstep] in H. clear Hown. destruct (ch_q ch =? 0) eqn:Eq; injection H as <- <-; [done|].
        destruct (Hord' tid _ (list_lookup_insert _ _ _ Hlt) eq_refl) as (_ & O2 & _). cbn in O2.
        assert (Ec : counteds ths = []).
        { apply counteds_nil. intros tid2 n h src a H2. assert (tid2 ≠ tid) by congruence.
          assert (tid2 = tid); [|done]. apply (O2 tid2 (TCounted n h src a)); [|done]. by rewrite list_lookup_insert_ne. }
        pose proof (ac_count _ _ HA) as Hc. rewrite Ec in Hc. cbn [d_counted] in Hsum. cbn [pend].
        assert (Hwl : ∀ z, 0 <= z -> wrap64 z <= z) by (unfold wrap64; lia).
        assert (Hnn : 0 <= len (held_in (sh_heap s)) + len (rooms ths)) by (unfold len; lia).
        specialize (Hwl _ Hnn). replace (len (@nil ())) with 0 in Hc by done. rewrite Z.sub_0_r in Hc. rewrite <-Hc in Hwl.
        destruct (sh_count s <? ch_q ch) eqn:El; lia.
      * pose proof (od_sum _ _ HO _ _ Ht Hw0) as Hs. etrans; [|exact Hsum].
        assert (Hp : pend th' <= pend th - d_counted th); [|lia].
        clear -H Hw Hw0. destruct th; try discriminate Hw0; cbn [tstep] in H; step_cases H; try discriminate Hw; cbn [pend d_counted]; lia.
    + destruct (Hother tid2 th2) as [Hwf _]; [done..|]. pose proof (od_sum _ _ HO _ _ H2 Hw).
      assert (d_counted th = 0) by (by destruct th). lia.
  - (* held *) intros src a sg Hi Ha.
    assert (Hd : ∀ l, l ⊆+ done_to src ths -> l ⊆+ done_to src (<[tid:=th']> ths)).
    { intros l Hl. etrans; [exact Hl|]. by eapply done_to_step. }
    destruct HK as [E _ _ [Eh|(b & sgb & sgb' & Hb & Eh & HE)]|e src1 -> -> Eh E|n1 h1 src1 b sgb sgb' -> -> Hb Eh Et E]; rewrite E in Hi; rewrite Eh in Ha.
    + apply Hd. by eapply (od_held _ _ HO).
    + apply lookup_insert_Some in Ha as [[<- <-]|[_ Ha]]; [|apply Hd; by eapply (od_held _ _ HO)].
      pose proof (od_held _ _ HO _ _ _ Hi Hb) as Hh.
      destruct HE as [Et|e src1 k x l _ _ _ E1 E2 _|e src1 f -> -> _ _ _ E2 _|n h src1 k x l _ _ _ E1 E2].
      * unfold held in *. rewrite Et. by apply Hd.
      * rewrite E2. rewrite E1 in Hh. apply Hd. etrans; [|exact Hh]. cbn. by constructor.
      * rewrite E2. etrans; [apply linsert_snd_sub|].
        destruct (bind_upd (put_done_to src) ths tid _ (PDone e src1) Ht) as (r & R & R').
        unfold done_to in *. rewrite R in Hh. rewrite R'. cbn [put_done_to app] in *.
        assert (src1 = src) as ->. { eapply (od_inj _ _ HO); [|exact Hi]. by eapply (od_put _ _ HO). }
        rewrite decide_True by done. rewrite (Permutation_app_comm _ [e]). cbn. by apply submseteq_skip.
      * rewrite E2. rewrite E1 in Hh. apply Hd. etrans; [|exact Hh]. cbn. by constructor.
    + apply lookup_insert_Some in Ha as [[<- <-]|[Hne Ha]]; [apply submseteq_nil_l|].
      apply lookup_insert_Some in Hi as [[_ <-]|[_ Hi]]; [done|]. apply Hd. by eapply (od_held _ _ HO).
    + apply lookup_delete_Some in Hi as [_ Hi]. apply lookup_insert_Some in Ha as [[<- <-]|[_ Ha]].
      * unfold held. rewrite Et. apply Hd. by eapply (od_held _ _ HO).
      * apply Hd. by eapply (od_held _ _ HO).
  - (* calm *) assert (HC := od_calm _ _ HO). split.
    + intros tid2 H2. apply insert_Some in H2 as [[_ ->]|[_ H2]]; [done|by eapply (cm_panic _ _ HC)].
    + intros tid2 th2 q H2 Hq. apply insert_Some in H2 as [[<- <-]|[_ H2]]; [|by eapply (cm_query _ _ HC)].
      eapply (cm_query _ _ HC); [exact Ht|]. by eapply tstep_query.
    + intros tid2 th2 k H2 Hk.
      assert (Hold : is_Some (sh_index s !! k)).
      { apply insert_Some in H2 as [[<- <-]|[_ H2]]; [|by eapply (cm_keys _ _ HC)].
        destruct (tstep_keys _ _ _ _ _ _ _ H Hk) as [Hx|Hx]; [|done]. by eapply (cm_keys _ _ HC). }
      destruct HK as [E _ _ _|e src _ _ _ E|n h src b sg sg' -> -> _ _ _ E]; rewrite E; [done| |].
      * apply lookup_insert_is_Some'. auto.
      * exfalso. apply insert_Some in H2 as [[_ <-]|[_ H2]]; [by inversion Hk|].
        destruct (Hord _ _ Ht eq_refl) as (_ & _ & O3). cbn in O3. specialize (O3 eq_refl th2 (elem_of_list_lookup_2 _ _ _ H2)).
        destruct th2; try discriminate O3; by inversion Hk.
Qed.

Lemma rooms_call ths x : rooms (ths ++ [start_of x]) = rooms ths.
Proof. unfold rooms. rewrite bind_app. cbn. destruct x; cbn; by rewrite app_nil_r. Qed.

Lemma ordl_call s ths x : ordl s ths -> (∀ src q, x = CGet src q -> q_known q) -> ordl s (ths ++ [start_of x]).
Proof.
  intros HO Hq.
  assert (Hl : ∀ tid th, (ths ++ [start_of x]) !! tid = Some th -> ths !! tid = Some th ∨ th = start_of x).
  { intros tid th H. apply lookup_app_Some in H as [H|[_ H]]; [by left|]. apply list_lookup_singleton_Some in H as [_ <-]. by right. }
  assert (Hr : ∀ tid th, ths !! tid = Some th -> (ths ++ [start_of x]) !! tid = Some th) by (intros; by apply lookup_app_l_Some).
  split.
  - apply (od_inj _ _ HO).
  - intros tid th src a H Hp. apply Hl in H as [H| ->]; [by eapply (od_put _ _ HO)|by destruct x].
  - intros tid e src H. apply Hl in H as [H|H]; [by eapply (od_miss _ _ HO)|by destruct x].
  - apply (od_out _ _ HO).
  - intros src a sg Hi Ha He. destruct (od_empty _ _ HO _ _ _ Hi Ha He) as [(tid & th & H & Hp)|(tid & n & h & H)]; [left|right]; eauto 10.
  - intros tid th H Hw. apply Hl in H as [H| ->]; [by eapply (od_nodup _ _ HO)|by destruct x].
  - intros tid th p H Hw Hp. apply Hl in H as [H| ->]; [by eapply (od_ents _ _ HO)|by destruct x].
  - intros tid th H Hw. apply Hl in H as [H| ->]; [by eapply (od_covers _ _ HO)|by destruct x].
  - intros tid n h src a sg H Ha. apply Hl in H as [H|H]; [by eapply (od_del _ _ HO)|by destruct x].
  - intros tid th H Hw. rewrite rooms_call. apply Hl in H as [H| ->]; [by eapply (od_sum _ _ HO)|by destruct x].
  - intros src a sg Hi Ha. etrans; [by eapply (od_held _ _ HO)|]. unfold done_to. rewrite bind_app. apply submseteq_inserts_r. done.
  - assert (HC := od_calm _ _ HO). split.
    + intros tid H. apply Hl in H as [H|H]; [by eapply (cm_panic _ _ HC)|by destruct x].
    + intros tid th q H Hx. apply Hl in H as [H| ->]; [by eapply (cm_query _ _ HC)|].
      destruct x; try discriminate Hx. cbn in Hx. injection Hx as ->. by eapply Hq.
    + intros tid th k H Hk. apply Hl in H as [H| ->]; [by eapply (cm_keys _ _ HC)|]. destruct x; by inversion Hk.
Qed.

Lemma orderly_prefix m l1 l2 : orderly_run m (l1 ++ l2) -> orderly_run m l1.
Proof. intros H a b c -> Hc. eapply (H a (b ++ l2)); [by rewrite app_assoc|done]. Qed.
Lemma orderly_now m ls c : orderly_run m ls -> crun (initial m) ls = Some c -> orderly c.
Proof. intros H Hc. eapply (H ls []); [by rewrite app_nil_r|done]. Qed.
Lemma ordl_no_crash s ths : ordl s ths -> Panicked ∉ ths.
Proof. intros HO Hp. apply elem_of_list_lookup in Hp as [tid Hp]. by eapply (cm_panic _ _ (od_calm _ _ HO)). Qed.

Theorem ordl_reach m ls c : 1 <= m -> spread m ls -> known_types ls -> orderly_run m ls -> crun (initial m) ls = Some c ->
  ordl (cf_sh c) (cf_threads c).
Proof.
  intros Hm. revert c. induction ls as [|l ls IH] using rev_ind; intros c Hsp Hk Hord H.
  { injection H as <-. split; cbn; try (intros *; rewrite ?lookup_empty, ?lookup_nil; done). }
  apply crun_snoc in H as (c1 & H1 & H2). assert (Hsp1 := spread_prefix _ _ _ Hsp). assert (Hord1 := orderly_prefix _ _ _ Hord).
  assert (Hk1 : known_types ls). { intros src q ts t Hin. apply Hk with src. apply elem_of_app. by left. }
  assert (IHo := IH c1 Hsp1 Hk1 Hord1 H1). destruct (trees_reach m ls c1 Hm H1) as [HL HT].
  assert (Ho1 := orderly_now _ _ _ Hord1 H1).
  assert (Ho2 : orderly c). { eapply (orderly_now m); [exact Hord|]. rewrite crun_app, H1. cbn [mbind option_bind crun]. by rewrite H2. }
  apply cstep_cases in H2 as [(x & -> & ->)|(tid & ch & th & s' & th' & -> & Ht & Hs & ->)]; cbn [cf_sh cf_threads].
  - apply ordl_call; [done|]. intros src q -> ts t. apply Hk with src. apply elem_of_app. right. by constructor.
  - destruct c1 as [s1 ths1]. cbn [cf_sh cf_threads] in *. eapply (ordl_step m tid ch s1 th). split; try done.
    + apply (acct_reach m ls _ Hm Hsp1 H1). cbn. by eapply ordl_no_crash.
    + intros e src a sg -> Ha. by eapply (free_reach m ls).
Qed.

(** ** The properties *)
Theorem orderly_no_crash m ls c : 1 <= m -> spread m ls -> known_types ls -> orderly_run m ls -> crun (initial m) ls = Some c -> ¬ crashed c.
Proof. intros Hm Hs Hk Ho H. eapply ordl_no_crash. by eapply ordl_reach. Qed.

Lemma bind_ext_in {A B} (f g : A -> list B) (l : list A) : (∀ x, x ∈ l -> f x = g x) -> l ≫= f = l ≫= g.
Proof.
  induction l as [|x l IH]; intros H; [done|]. cbn. rewrite (H x) by constructor. f_equal. apply IH. intros. apply H. by constructor.
Qed.
Lemma Permutation_refl_eq {A} (l l' : list A) : l = l' -> l ≡ₚ l'.
Proof. by intros ->. Qed.
Lemma visible_held s ths : locks s ths -> ordl s ths -> all_visible (mk_cfg s ths) ≡ₚ all_held (mk_cfg s ths).
Proof.
  intros HL HO. unfold all_visible, all_held. cbn [cf_sh].
  assert (Hidx : ∀ (idx : gmap string nat) (h : gmap nat cstorage),
    (∀ s1 s2 a, idx !! s1 = Some a -> idx !! s2 = Some a -> s1 = s2) ->
    (∀ src a, idx !! src = Some a -> is_Some (h !! a)) ->
    (∀ a sg, h !! a = Some sg -> (∀ src, idx !! src ≠ Some a) -> held sg = []) ->
    ((map_to_list idx).*1 ≫= (fun src => match idx !! src with Some a => match h !! a with Some sg => (held sg).*2 | None => [] end | None => [] end)) ≡ₚ held_in h).
  { intros idx. induction idx as [|src a idx Hn IH] using map_ind; intros h Hinj Hin Hout.
    - rewrite map_to_list_empty. cbn. rewrite held_in_nil; [done|]. intros a sg Ha. eapply Hout; [exact Ha|]. intros src. by rewrite lookup_empty.
    - rewrite map_to_list_insert by done. cbn [fmap list_fmap fst mbind list_bind]. rewrite lookup_insert.
      destruct (Hin src a) as [sg Ha]; [by rewrite lookup_insert|]. rewrite Ha.
      assert (Hne : ∀ src', is_Some (idx !! src') -> src' ≠ src). { intros src' [x Hx] ->. congruence. }
      assert (Hna : ∀ src' b, idx !! src' = Some b -> b ≠ a).
      { intros src' b Hb ->. apply (Hne src'); [eauto|]. eapply Hinj; [rewrite lookup_insert_ne; [exact Hb|]|by rewrite lookup_insert].
        intros ->. congruence. }
      transitivity ((held sg).*2 ++ held_in (delete a h)).
      2: { unfold held_in. rewrite <-(map_to_list_delete h a sg Ha). done. }
      f_equiv. rewrite <-(IH (delete a h)).
      + apply Permutation_refl_eq, bind_ext_in. intros src' Hs. apply elem_of_list_fmap in Hs as ([src2 b] & -> & Hs). cbn.
        apply elem_of_map_to_list in Hs. rewrite lookup_insert_ne by (intros ->; congruence). rewrite Hs.
        rewrite lookup_delete_ne; [done|]. intros ->. by eapply Hna.
      + intros s1 s2 b H1 H2. apply (Hinj s1 s2 b); rewrite lookup_insert_ne; try done; intros ->; congruence.
      + intros src' b Hb. rewrite lookup_delete_ne by (intros ->; by eapply Hna). apply (Hin src').
        rewrite lookup_insert_ne; [done|]. intros ->; congruence.
      + intros b sgb Hb Hno. apply lookup_delete_Some in Hb as [Hne' Hb]. apply (Hout b sgb Hb). intros src' Hs.
        apply lookup_insert_Some in Hs as [[_ ->]|[_ Hs]]; [done|by apply (Hno src')]. }
  specialize (Hidx (sh_index s) (sh_heap s) (od_inj _ _ HO) (lk_index _ _ HL) (od_out _ _ HO)). exact Hidx.
Qed.

Theorem orderly_no_loss m ls c : 1 <= m -> spread m ls -> known_types ls -> orderly_run m ls -> crun (initial m) ls = Some c ->
  (∀ th, th ∈ cf_threads c -> working th = false) ->
  (∀ src, visible_to c src ⊆+ written_to src c) ∧
  ∃ expired, all_written c ≡ₚ expired ++ all_visible c ∧ Z.of_nat (length expired) = sh_expired (cf_sh c).
Proof.
  intros Hm Hs Hk Ho H Hw. pose proof (ordl_reach m ls c Hm Hs Hk Ho H) as HO. destruct (trees_reach m ls c Hm H) as [HL HT].
  split.
  - intros src. unfold visible_to. destruct (sh_index (cf_sh c) !! src) as [a|] eqn:Ei; [|apply submseteq_nil_l].
    destruct (sh_heap (cf_sh c) !! a) as [sg|] eqn:Ea; [|apply submseteq_nil_l]. by eapply (od_held _ _ HO).
  - destruct (acct_reach m ls c Hm Hs H) as [(gone & G1 & G2) _]; [by eapply ordl_no_crash|].
    exists gone. destruct c as [s ths]. rewrite (visible_held _ _ HL HO). split; [exact G2|].
    rewrite counteds_nil in G1; [unfold len in G1; cbn in *; lia|].
    intros tid n h src a Hx. specialize (Hw _ (elem_of_list_lookup_2 _ _ _ Hx)). done.
Qed.
Theorem orderly_count m ls c : 1 <= m -> spread m ls -> known_types ls -> orderly_run m ls -> crun (initial m) ls = Some c ->
  quiescent c -> sh_count (cf_sh c) = wrap64 (Z.of_nat (length (all_visible c))).
Proof.
  intros Hm Hs Hk Ho H Hq. pose proof (ordl_reach m ls c Hm Hs Hk Ho H) as HO. destruct (trees_reach m ls c Hm H) as [HL HT].
  destruct (acct_reach m ls c Hm Hs H) as [_ Hc]; [by eapply ordl_no_crash|]. destruct c as [s ths]. cbn [cf_sh cf_threads] in *.
  rewrite counteds_nil, rooms_nil in Hc.
  - rewrite Hc, (Permutation_length (visible_held _ _ HL HO)). unfold len, all_held. cbn. f_equal. unfold held_in. lia.
  - intros tid e src a Hx. specialize (Hq _ (elem_of_list_lookup_2 _ _ _ Hx)). done.
  - intros tid n h src a Hx. specialize (Hq _ (elem_of_list_lookup_2 _ _ _ Hx)). done.
Qed.
