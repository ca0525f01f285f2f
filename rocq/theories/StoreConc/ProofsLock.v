(** Lock discipline of the concurrent store: invariant of every reachable configuration. *)
From stdpp Require Import prelude gmap strings.
From Coq Require Import ZifyBool ZifyNat.
From Verif.Base Require Import GoInt Envelope.
From Verif.Store Require Import Avl AvlProofs GoHeap GoHeapProofs Model Spec ProofsBase.
From Verif.StoreConc Require Import Model Spec.
Open Scope Z_scope.

(** ** Executions *)
Lemma crun_app c l1 l2 : crun c (l1 ++ l2) = c1 ← crun c l1; crun c1 l2.
Proof.
  revert c. induction l1 as [|l l1 IH]; intros c; [done|]. cbn [crun app].
  destruct (cstep c l); cbn [mbind option_bind]; [apply IH|done].
Qed.
Lemma crun_snoc c ls l c2 : crun c (ls ++ [l]) = Some c2 -> ∃ c1, crun c ls = Some c1 ∧ cstep c1 l = Some c2.
Proof.
  rewrite crun_app. destruct (crun c ls) as [c1|]; [|done]. cbn [mbind option_bind crun].
  destruct (cstep c1 l) eqn:E; [|done]. cbn. intros [= <-]. eauto.
Qed.
Lemma crun_inv (P : config -> Prop) c :
  P c -> (∀ c1 l c2, P c1 -> cstep c1 l = Some c2 -> P c2) -> ∀ ls c', crun c ls = Some c' -> P c'.
Proof.
  intros H0 Hs ls. induction ls as [|l ls IH] using rev_ind; intros c' H; [by injection H as <-|].
  apply crun_snoc in H as (c1 & H1 & H2). eauto.
Qed.

(** ** What a call holds *)
Definition holds_w (th : thread) : option nat :=
  match th with PIn _ _ a | PRoom _ _ a | TIn _ _ _ a | TCounted _ _ _ a | TDel _ _ _ a => Some a | _ => None end.
Definition holds_r (th : thread) : option nat := match th with GIn _ _ a _ => Some a | _ => None end.
Definition holds_i (th : thread) : bool := match th with PInit _ _ | PMiss _ _ => true | _ => false end.
Definition addrs (th : thread) : list nat :=
  match th with
  | PWait _ _ a | PIn _ _ a | PRoom _ _ a | GWait _ _ a | GIn _ _ a _ | MRead _ _ _ _ a | MSize _ _ _ a => [a]
  | TRange _ _ _ h | TLoop _ h => h.*2.*2
  | TPush _ _ _ h _ a | TWait _ h _ a | TIn _ h _ a | TCounted _ h _ a | TDel _ h _ a => a :: h.*2.*2
  | _ => []
  end.

Record locks (s : shared) (ths : list thread) : Prop := {
  lk_fresh : ∀ a sg, sh_heap s !! a = Some sg -> (a < sh_next s)%nat;
  lk_index : ∀ src a, sh_index s !! src = Some a -> is_Some (sh_heap s !! a);
  lk_addr : ∀ tid th a, ths !! tid = Some th -> a ∈ addrs th -> is_Some (sh_heap s !! a);
  lk_w : ∀ tid th a sg, ths !! tid = Some th -> holds_w th = Some a -> sh_heap s !! a = Some sg -> cs_writer sg = Some tid;
  lk_r : ∀ tid th a sg, ths !! tid = Some th -> holds_r th = Some a -> sh_heap s !! a = Some sg -> tid ∈ cs_readers sg;
  lk_i : ∀ tid th, ths !! tid = Some th -> holds_i th = true -> sh_init s = Some tid;
  lk_x : ∀ a sg, sh_heap s !! a = Some sg -> cs_writer sg ≠ None -> cs_readers sg = ∅
}.

Lemma locks_initial m : locks (new_shared m) [].
Proof. split; cbn; try done; intros *; rewrite ?lookup_empty, ?lookup_nil; try done; by inversion 1. Qed.

Lemma heap_pop_perm {A} (key : A -> Z) h x h' : heap_pop key h = Some (x, h') -> h ≡ₚ x :: h'.
Proof.
  unfold heap_pop. destruct h as [|y h]; [done|]. unfold raw_pop.
  set (d := hdown key _ _ _ _). destruct (last d) as [z|] eqn:E; [|done]. intros [= -> <-].
  assert (Hd : d ≡ₚ y :: h) by (unfold d; by rewrite hdown_perm, hswap_perm).
  assert (E2 : d = take (length d - 1) d ++ [x]).
  { apply last_Some in E as [l' ->]. rewrite app_length. cbn.
    replace (length l' + 1 - 1)%nat with (length l') by lia. by rewrite take_app. }
  rewrite <-Hd. rewrite E2 at 1. by rewrite Permutation_app_comm.
Qed.

(** Case analysis of a step *)
Ltac step_cases H :=
  repeat match type of H with
  | mbind _ _ = Some _ => apply bind_Some in H as (? & ? & H)
  | (match ?x with _ => _ end) = Some _ => let E := fresh "E" in destruct x eqn:E
  | None = Some _ => discriminate H
  | Some _ = Some _ => injection H as <- <-
  | _ => progress cbv beta zeta in H
  end.

#[local] Opaque find_fudge avl_put avl_remove avl_left get_tree lookup insert heap_pop heap_push.

(** What a step does to one storage's lock *)
Inductive use (tid : nat) (a : nat) (th th' : thread) (sg sg' : cstorage) : Prop :=
| use_lock : cs_writer sg = None -> cs_readers sg = ∅ -> holds_w th = None -> holds_r th = None ->
    holds_w th' = Some a -> holds_r th' = None -> sg' = mk_cs (cs_tree sg) (cs_meta sg) (Some tid) ∅ -> use tid a th th' sg sg'
| use_rlock : cs_writer sg = None -> holds_w th = None -> holds_r th = None -> holds_w th' = None -> holds_r th' = Some a ->
    sg' = mk_cs (cs_tree sg) (cs_meta sg) None ({[tid]} ∪ cs_readers sg) -> use tid a th th' sg sg'
| use_runlock : holds_r th = Some a -> holds_w th = None -> holds_w th' = None -> holds_r th' = None ->
    sg' = runlock tid sg -> use tid a th th' sg sg'
| use_work : holds_w th = Some a -> holds_r th = None -> holds_w th' = Some a -> holds_r th' = None ->
    cs_writer sg' = cs_writer sg -> cs_readers sg' = cs_readers sg -> use tid a th th' sg sg'
| use_unlock : holds_w th = Some a -> holds_r th = None -> holds_w th' = None -> holds_r th' = None ->
    cs_writer sg' = None -> cs_readers sg' = cs_readers sg -> use tid a th th' sg sg'.

(** The heap after a step: unchanged, one storage added, or one storage used *)
Inductive change (tid : nat) (s : shared) (th : thread) (s' : shared) (th' : thread) : Prop :=
| ch_same : sh_heap s' = sh_heap s -> sh_next s' = sh_next s ->
    (holds_w th' = None ∨ holds_w th' = holds_w th) -> (holds_r th' = None ∨ holds_r th' = holds_r th) ->
    (th' = Panicked ∨ holds_w th' = holds_w th ∧ holds_r th' = holds_r th) ->
    change tid s th s' th'
| ch_new : sh_heap s' = <[sh_next s := mk_cs avl_new meta_zero None ∅]> (sh_heap s) -> sh_next s' = S (sh_next s) ->
    holds_w th = None -> holds_r th = None -> holds_w th' = None -> holds_r th' = None -> change tid s th s' th'
| ch_use a sg sg' : sh_heap s !! a = Some sg -> sh_heap s' = <[a := sg']> (sh_heap s) -> sh_next s' = sh_next s ->
    use tid a th th' sg sg' -> change tid s th s' th'.

Lemma lock_Some tid sg sg' : lock tid sg = Some sg' ->
  cs_writer sg = None ∧ cs_readers sg = ∅ ∧ sg' = mk_cs (cs_tree sg) (cs_meta sg) (Some tid) ∅.
Proof. unfold lock. destruct (cs_writer sg); [done|]. case_decide; [|done]. by intros [= <-]. Qed.
Lemma rlock_Some tid sg sg' : rlock tid sg = Some sg' ->
  cs_writer sg = None ∧ sg' = mk_cs (cs_tree sg) (cs_meta sg) None ({[tid]} ∪ cs_readers sg).
Proof. unfold rlock. destruct (cs_writer sg); [done|]. by intros [= <-]. Qed.

Lemma tstep_change tid ch s th s' th' : tstep tid ch s th = Some (s', th') -> change tid s th s' th'.
Proof.
  intros H. destruct th; cbn [tstep] in H; step_cases H.
  all: try match goal with E : lock _ _ = Some _ |- _ => apply lock_Some in E as (? & ? & ->) end.
  all: try match goal with E : rlock _ _ = Some _ |- _ => apply rlock_Some in E as (? & ->) end.
  all: first
    [ apply ch_same; [reflexivity|reflexivity|cbn [holds_w]; tauto|cbn [holds_r]; tauto|cbn [holds_w holds_r]; tauto]
    | apply ch_new; reflexivity
    | eapply ch_use; [eassumption|reflexivity|reflexivity|
        first [ apply use_lock; first [assumption|reflexivity]
              | apply use_rlock; first [assumption|reflexivity]
              | apply use_runlock; reflexivity
              | apply use_work; reflexivity
              | apply use_unlock; reflexivity ]]].
Qed.

Lemma change_domain tid s th s' th' a : change tid s th s' th' -> is_Some (sh_heap s !! a) -> is_Some (sh_heap s' !! a).
Proof.
  intros [-> _ _ _ _| -> _ _ _ _ _|b sg sg' _ -> _ _] Ha; [done| |]; apply lookup_insert_is_Some'; auto.
Qed.

Lemma tstep_addrs tid ch s th s' th' : tstep tid ch s th = Some (s', th') ->
  ∀ a, a ∈ addrs th' -> a ∈ addrs th ∨ (∃ src, sh_index s !! src = Some a) ∨ (a = sh_next s ∧ sh_next s' = S a ∧ is_Some (sh_heap s' !! a)).
Proof.
  intros H. destruct th; cbn [tstep] in H; step_cases H; cbn [addrs]; intros b Hb.
  all: try (left; exact Hb).
  all: try (by inversion Hb).
  all: rewrite ?elem_of_cons, ?elem_of_nil in Hb.
  all: try (destruct Hb as [->|[]]; right; left; eauto; fail).
  all: try (left; apply elem_of_cons; right; exact Hb).
  - destruct Hb as [->|[]]. right; right. cbn. rewrite lookup_insert. eauto.
  - destruct Hb as [->|Hb]; [right; left; eauto|left; done].
  - left. revert Hb. rewrite heap_push_perm. cbn. rewrite elem_of_cons. intros [->|Hb]; [by left|by right].
  - left. apply heap_pop_perm in E0. rewrite E0. cbn. rewrite elem_of_cons. done.
  - left. revert Hb. rewrite heap_push_perm. cbn. rewrite elem_of_cons. intros [->|Hb]; [by left|by right].
Qed.

Lemma tstep_index tid ch s th s' th' : tstep tid ch s th = Some (s', th') ->
  sh_index s' = sh_index s ∨
  (∃ e src, th = PMiss e src ∧ sh_index s' = <[src := sh_next s]> (sh_index s) ∧ sh_heap s' !! sh_next s = Some (mk_cs avl_new meta_zero None ∅)) ∨
  (∃ n h src a, th = TDel n h src a ∧ sh_index s' = delete src (sh_index s)).
Proof.
  intros H. destruct th; cbn [tstep] in H; step_cases H.
  all: try (left; reflexivity).
  - right; left. eexists _, _. split; [reflexivity|]. split; [reflexivity|]. cbn. by rewrite lookup_insert.
  - right; right. repeat eexists.
Qed.

Lemma tstep_init tid ch s th s' th' : tstep tid ch s th = Some (s', th') ->
  (sh_init s' = sh_init s ∧ holds_i th' = holds_i th) ∨
  (sh_init s = None ∧ sh_init s' = Some tid ∧ holds_i th = false ∧ holds_i th' = true) ∨
  (holds_i th = true ∧ sh_init s' = None ∧ holds_i th' = false).
Proof.
  intros H. destruct th; cbn [tstep] in H; step_cases H.
  all: cbn; tauto.
Qed.

Lemma insert_Some {A} (l : list A) i x j y : <[i:=x]> l !! j = Some y -> (i = j ∧ x = y) ∨ (i ≠ j ∧ l !! j = Some y).
Proof. intros H. apply list_lookup_insert_Some in H. tauto. Qed.

Lemma locks_step tid ch s th s' th' ths : locks s ths -> ths !! tid = Some th ->
  tstep tid ch s th = Some (s', th') -> locks s' (<[tid:=th']> ths).
Proof.
  intros HL Ht H. pose proof (tstep_change _ _ _ _ _ _ H) as HC.
  split.
  - intros a sg Ha. destruct HC as [Eh En _ _ _|Eh En _ _ _ _|b sg0 sg' Hb Eh En _]; rewrite Eh in Ha; rewrite En.
    + eapply lk_fresh; eauto.
    + apply lookup_insert_Some in Ha as [[<- _]|[_ Ha]]; [lia|]. pose proof (lk_fresh _ _ HL _ _ Ha). lia.
    + apply lookup_insert_Some in Ha as [[<- _]|[_ Ha]]; [eapply lk_fresh; eauto|]. eapply lk_fresh; eauto.
  - intros src a Ha. destruct (tstep_index _ _ _ _ _ _ H) as [E|[(e & x & _ & E & Hn)|(n & h & x & b & _ & E)]]; rewrite E in Ha.
    + eapply change_domain; eauto. eapply lk_index; eauto.
    + apply lookup_insert_Some in Ha as [[_ <-]|[_ Ha]]; [eauto|]. eapply change_domain; eauto. eapply lk_index; eauto.
    + apply lookup_delete_Some in Ha as [_ Ha]. eapply change_domain; eauto. eapply lk_index; eauto.
  - intros tid2 th2 a H2 Ha. apply insert_Some in H2 as [[_ <-]|[_ H2]].
    + destruct (tstep_addrs _ _ _ _ _ _ H a Ha) as [Hin|[(src & Hi)|(_ & _ & Hs)]]; [| |done].
      * eapply change_domain; eauto. eapply lk_addr; eauto.
      * eapply change_domain; eauto. eapply lk_index; eauto.
    + eapply change_domain; eauto. eapply lk_addr; eauto.
  - intros tid2 th2 a sg H2 Hh Ha. apply insert_Some in H2 as [[<- <-]|[Hne H2]].
    + destruct HC as [Eh En Hw _ _|Eh En _ _ Hw _|b sg0 sg' Hb Eh En Hu]; rewrite Eh in Ha.
      * destruct Hw as [Hw|Hw]; [congruence|]. eapply lk_w; eauto. congruence.
      * congruence.
      * destruct Hu; try congruence.
        -- assert (a = b) as -> by congruence. rewrite lookup_insert in Ha. injection Ha as <-. subst sg'. done.
        -- assert (a = b) as -> by congruence. rewrite lookup_insert in Ha. injection Ha as <-. 
           match goal with E : cs_writer sg' = _ |- _ => rewrite E end. eapply lk_w; eauto.
    + destruct HC as [Eh En Hw _ _|Eh En _ _ Hw _|b sg0 sg' Hb Eh En Hu]; rewrite Eh in Ha.
      * eapply lk_w; eauto.
      * apply lookup_insert_Some in Ha as [[Hx _]|[_ Ha]]; [|eapply lk_w; eauto].
        exfalso. assert (Hin : a ∈ addrs th2) by (destruct th2; cbn in Hh; try discriminate; injection Hh as ->; cbn; constructor).
        destruct (lk_addr _ _ HL _ _ _ H2 Hin) as [sg1 Hs1]. pose proof (lk_fresh _ _ HL _ _ Hs1). lia.
      * apply lookup_insert_Some in Ha as [[<- <-]|[_ Ha]]; [|eapply lk_w; eauto].
        pose proof (lk_w _ _ HL _ _ _ _ H2 Hh Hb) as Hw2.
        destruct Hu as [Hu|Hu|Hu _ _ _ ->|Hu _ _ _ Hu'|Hu _ _ _ Hu']; try congruence; try done.
        pose proof (lk_w _ _ HL _ _ _ _ Ht Hu Hb) as Hw3. congruence.
  - intros tid2 th2 a sg H2 Hh Ha. apply insert_Some in H2 as [[<- <-]|[Hne H2]].
    + destruct HC as [Eh En _ Hr _|Eh En _ _ _ Hr|b sg0 sg' Hb Eh En Hu]; rewrite Eh in Ha.
      * destruct Hr as [Hr|Hr]; [congruence|]. eapply lk_r; eauto. congruence.
      * congruence.
      * destruct Hu; try congruence.
        assert (a = b) as -> by congruence. rewrite lookup_insert in Ha. injection Ha as <-. subst sg'. cbn. set_solver.
    + destruct HC as [Eh En _ Hr _|Eh En _ _ _ Hr|b sg0 sg' Hb Eh En Hu]; rewrite Eh in Ha.
      * eapply lk_r; eauto.
      * apply lookup_insert_Some in Ha as [[Hx _]|[_ Ha]]; [|eapply lk_r; eauto].
        exfalso. assert (Hin : a ∈ addrs th2) by (destruct th2; cbn in Hh; try discriminate; injection Hh as ->; cbn; constructor).
        destruct (lk_addr _ _ HL _ _ _ H2 Hin) as [sg1 Hs1]. pose proof (lk_fresh _ _ HL _ _ Hs1). lia.
      * apply lookup_insert_Some in Ha as [[<- <-]|[_ Ha]]; [|eapply lk_r; eauto].
        pose proof (lk_r _ _ HL _ _ _ _ H2 Hh Hb) as Hr2.
        destruct Hu as [Hu1 Hu|Hu _ _ _ _ ->|Hu _ _ _ ->|Hu _ _ _ Hu'|Hu _ _ _ Hu'].
        -- rewrite Hu in Hr2. set_solver.
        -- cbn. set_solver.
        -- cbn. set_solver.
        -- congruence.
        -- congruence.
  - intros tid2 th2 H2 Hh. apply insert_Some in H2 as [[<- <-]|[Hne H2]].
    + destruct (tstep_init _ _ _ _ _ _ H) as [[E E']|[(E1 & E2 & E3 & E4)|(E1 & E2 & E3)]]; [|done|congruence].
      rewrite E. rewrite E' in Hh. eapply lk_i; eauto.
    + pose proof (lk_i _ _ HL _ _ H2 Hh) as Hi.
      destruct (tstep_init _ _ _ _ _ _ H) as [[E E']|[(E1 & E2 & E3 & E4)|(E1 & E2 & E3)]]; [congruence|congruence|].
      pose proof (lk_i _ _ HL _ _ Ht E1). congruence.
  - intros a sg Ha Hw. destruct HC as [Eh En _ Hr _|Eh En _ _ _ Hr|b sg0 sg' Hb Eh En Hu]; rewrite Eh in Ha.
    + eapply lk_x; eauto.
    + apply lookup_insert_Some in Ha as [[_ <-]|[_ Ha]]; [done|]. eapply lk_x; eauto.
    + apply lookup_insert_Some in Ha as [[_ <-]|[_ Ha]]; [|eapply lk_x; eauto].
      destruct Hu as [Hu1 Hu _ _ _ _ ->|Hu _ _ _ _ ->|Hu _ _ _ ->|Hu _ _ _ Hu' Hu''|Hu _ _ _ Hu' Hu'']; try done.
      * cbn in *. rewrite (lk_x _ _ HL _ _ Hb Hw). set_solver.
      * rewrite Hu''. eapply lk_x; eauto. congruence.
Qed.

Lemma locks_call s ths c : locks s ths -> locks s (ths ++ [start_of c]).
Proof.
  intros HL. destruct HL. split; auto.
  all: intros tid th; intros; match goal with H : (_ ++ _) !! _ = Some _ |- _ => 
    apply lookup_app_Some in H as [H|[_ H]]; [eauto|apply list_lookup_singleton_Some in H as [_ <-]] end;
    destruct c; cbn in *; try done; match goal with H : _ ∈ [] |- _ => by inversion H end.
Qed.

Lemma cstep_cases c l c' : cstep c l = Some c' ->
  (∃ x, l = LCall x ∧ c' = mk_cfg (cf_sh c) (cf_threads c ++ [start_of x])) ∨
  (∃ tid ch th s' th', l = LStep tid ch ∧ cf_threads c !! tid = Some th ∧
     tstep tid ch (cf_sh c) th = Some (s', th') ∧ c' = mk_cfg s' (<[tid:=th']> (cf_threads c))).
Proof.
  unfold cstep. destruct (existsb _ _); [done|]. destruct l as [x|tid ch].
  - intros [= <-]. eauto.
  - intros H. apply bind_Some in H as (th & Ht & H). apply bind_Some in H as ([s' th'] & Hs & H).
    injection H as <-. right. exists tid, ch, th, s', th'. auto.
Qed.

Theorem locks_reach m ls c : crun (initial m) ls = Some c -> locks (cf_sh c) (cf_threads c).
Proof.
  apply (crun_inv (fun c => locks (cf_sh c) (cf_threads c))); [apply locks_initial|]. intros c1 l c2 HL H.
  apply cstep_cases in H as [(x & _ & ->)|(tid & ch & th & s' & th' & _ & Ht & Hs & ->)]; cbn.
  - by apply locks_call.
  - by eapply locks_step.
Qed.
