(** The concurrent store never deadlocks. *)
From stdpp Require Import prelude gmap strings.
From Coq Require Import ZifyBool ZifyNat.
From Verif.Base Require Import GoInt Envelope.
From Verif.Store Require Import Avl AvlProofs GoHeap GoHeapProofs Model Spec ProofsBase.
From Verif.StoreConc Require Import Model Spec ProofsLock ProofsTree ProofsLin ProofsAcct.
Open Scope Z_scope.
#[local] Opaque find_fudge avl_put avl_remove avl_left get_tree lookup insert heap_pop heap_push.

(** Whoever is registered as a holder is a call in that state *)
Record held_by (s : shared) (ths : list thread) : Prop := {
  hb_w : ∀ a sg tid, sh_heap s !! a = Some sg -> cs_writer sg = Some tid -> ∃ th, ths !! tid = Some th ∧ holds_w th = Some a;
  hb_r : ∀ a sg tid, sh_heap s !! a = Some sg -> tid ∈ cs_readers sg -> ∃ th, ths !! tid = Some th ∧ holds_r th = Some a;
  hb_i : ∀ tid, sh_init s = Some tid -> ∃ th, ths !! tid = Some th ∧ holds_i th = true
}.

Lemma held_by_step tid ch s th s' th' ths : locks s ths -> held_by s ths -> ths !! tid = Some th ->
  tstep tid ch s th = Some (s', th') -> th' ≠ Panicked -> held_by s' (<[tid:=th']> ths).
Proof.
  intros HL HB Ht H Hnp. pose proof (tstep_change _ _ _ _ _ _ H) as HC.
  assert (Hself : <[tid:=th']> ths !! tid = Some th') by (apply list_lookup_insert; by eapply lookup_lt_Some).
  assert (Hoth : ∀ t2, t2 ≠ tid -> <[tid:=th']> ths !! t2 = ths !! t2) by (intros; by apply list_lookup_insert_ne).
  split.
  - intros a sg t2 Ha Hw. destruct HC as [Eh En _ _ Hk|Eh En K1 K2 K3 K4|b sg0 sg' Hb Eh En Hu]; rewrite Eh in Ha.
    + destruct (hb_w _ _ HB _ _ _ Ha Hw) as (th2 & H2 & Hh). destruct (decide (t2 = tid)) as [->|Hne].
      * destruct Hk as [?|[Hk _]]; [done|]. exists th'. split; [done|]. congruence.
      * exists th2. rewrite Hoth by done. done.
    + apply lookup_insert_Some in Ha as [[_ <-]|[_ Ha]]; [done|].
      destruct (hb_w _ _ HB _ _ _ Ha Hw) as (th2 & H2 & Hh). destruct (decide (t2 = tid)) as [->|Hne]; [congruence|].
      exists th2. rewrite Hoth by done. done.
    + apply lookup_insert_Some in Ha as [[<- <-]|[Hne Ha]].
      * destruct Hu as [U1 U2 U3 U4 U5 U6 ->|U1 U2 U3 U4 U5 ->|U1 U2 U3 U4 ->|U1 U2 U3 U4 U5 U6|U1 U2 U3 U4 U5 U6]; cbn in Hw.
        -- injection Hw as <-. eauto.
        -- done.
        -- destruct (hb_w _ _ HB _ _ _ Hb Hw) as (th2 & H2 & Hh). destruct (decide (t2 = tid)) as [->|Hne]; [congruence|].
           exists th2. rewrite Hoth by done. done.
        -- rewrite U5 in Hw. destruct (hb_w _ _ HB _ _ _ Hb Hw) as (th2 & H2 & Hh). destruct (decide (t2 = tid)) as [->|Hne].
           ++ exists th'. split; [done|]. congruence.
           ++ exists th2. rewrite Hoth by done. done.
        -- congruence.
      * destruct (hb_w _ _ HB _ _ _ Ha Hw) as (th2 & H2 & Hh). destruct (decide (t2 = tid)) as [->|Hne2].
        -- exfalso. assert (th2 = th) as -> by congruence. destruct Hu; congruence.
        -- exists th2. rewrite Hoth by done. done.
  - intros a sg t2 Ha Hw. destruct HC as [Eh En _ _ Hk|Eh En K1 K2 K3 K4|b sg0 sg' Hb Eh En Hu]; rewrite Eh in Ha.
    + destruct (hb_r _ _ HB _ _ _ Ha Hw) as (th2 & H2 & Hh). destruct (decide (t2 = tid)) as [->|Hne].
      * destruct Hk as [?|[_ Hk]]; [done|]. exists th'. split; [done|]. congruence.
      * exists th2. rewrite Hoth by done. done.
    + apply lookup_insert_Some in Ha as [[_ <-]|[_ Ha]]; [cbn in Hw; set_solver|].
      destruct (hb_r _ _ HB _ _ _ Ha Hw) as (th2 & H2 & Hh). destruct (decide (t2 = tid)) as [->|Hne]; [congruence|].
      exists th2. rewrite Hoth by done. done.
    + apply lookup_insert_Some in Ha as [[<- <-]|[Hne Ha]].
      * destruct Hu as [U1 U2 U3 U4 U5 U6 ->|U1 U2 U3 U4 U5 ->|U1 U2 U3 U4 ->|U1 U2 U3 U4 U5 U6|U1 U2 U3 U4 U5 U6]; cbn in Hw.
        -- set_solver.
        -- apply elem_of_union in Hw as [Hw|Hw].
           ++ apply elem_of_singleton in Hw as ->. eauto.
           ++ destruct (hb_r _ _ HB _ _ _ Hb Hw) as (th2 & H2 & Hh). destruct (decide (t2 = tid)) as [->|Hne]; [congruence|].
              exists th2. rewrite Hoth by done. done.
        -- apply elem_of_difference in Hw as [Hw Hw2]. 
           destruct (hb_r _ _ HB _ _ _ Hb Hw) as (th2 & H2 & Hh). destruct (decide (t2 = tid)) as [->|Hne]; [set_solver|].
           exists th2. rewrite Hoth by done. done.
        -- rewrite U6 in Hw. destruct (hb_r _ _ HB _ _ _ Hb Hw) as (th2 & H2 & Hh). destruct (decide (t2 = tid)) as [->|Hne]; [congruence|].
           exists th2. rewrite Hoth by done. done.
        -- rewrite U6 in Hw. destruct (hb_r _ _ HB _ _ _ Hb Hw) as (th2 & H2 & Hh). destruct (decide (t2 = tid)) as [->|Hne]; [congruence|].
           exists th2. rewrite Hoth by done. done.
      * destruct (hb_r _ _ HB _ _ _ Ha Hw) as (th2 & H2 & Hh). destruct (decide (t2 = tid)) as [->|Hne2].
        -- exfalso. assert (th2 = th) as -> by congruence. destruct Hu; congruence.
        -- exists th2. rewrite Hoth by done. done.
  - intros t2 Hi. destruct (tstep_init _ _ _ _ _ _ H) as [[E E']|[(E1 & E2 & E3 & E4)|(E1 & E2 & E3)]].
    + rewrite E in Hi. destruct (hb_i _ _ HB _ Hi) as (th2 & H2 & Hh). destruct (decide (t2 = tid)) as [->|Hne].
      * exists th'. split; [done|]. congruence.
      * exists th2. rewrite Hoth by done. done.
    + rewrite E2 in Hi. injection Hi as <-. eauto.
    + congruence.
Qed.

Lemma held_by_reach m ls c : crun (initial m) ls = Some c -> ¬ crashed c -> held_by (cf_sh c) (cf_threads c).
Proof.
  revert c. induction ls as [|l ls IH] using rev_ind; intros c H Hnc.
  { injection H as <-. split; cbn; intros *; rewrite ?lookup_empty; done. }
  apply crun_snoc in H as (c1 & H1 & H2). pose proof (IH c1 H1 (no_panic_before _ _ _ H2)) as HB.
  pose proof (locks_reach m ls c1 H1) as HL.
  apply cstep_cases in H2 as [(x & -> & ->)|(tid & ch & th & s' & th' & -> & Ht & Hs & ->)]; cbn [cf_sh cf_threads].
  - destruct HB as [B1 B2 B3]. split.
    + intros a sg tid Ha Hw. destruct (B1 _ _ _ Ha Hw) as (th & H & Hh). exists th. split; [|done]. by apply lookup_app_l_Some.
    + intros a sg tid Ha Hw. destruct (B2 _ _ _ Ha Hw) as (th & H & Hh). exists th. split; [|done]. by apply lookup_app_l_Some.
    + intros tid Hw. destruct (B3 _ Hw) as (th & H & Hh). exists th. split; [|done]. by apply lookup_app_l_Some.
  - eapply held_by_step; eauto. intros ->. apply Hnc. unfold crashed. cbn. apply elem_of_list_lookup. exists tid.
    apply list_lookup_insert. by eapply lookup_lt_Some.
Qed.

Definition any_choice : choice := mk_choice None 0 [].

(** A call that holds a lock can go on *)
Lemma holder_steps s ths tid th : locks s ths -> ths !! tid = Some th ->
  (∃ a, holds_w th = Some a) ∨ (∃ a, holds_r th = Some a) ∨ holds_i th = true ->
  is_Some (tstep tid any_choice s th).
Proof.
  intros HL Ht Hh.
  assert (Hx : ∀ a, a ∈ addrs th -> is_Some (sh_heap s !! a)) by (intros; by eapply lk_addr).
  destruct th; cbn in Hh; try (destruct Hh as [[? ?]|[[? ?]|?]]; discriminate); cbn [tstep].
  all: try (destruct (Hx a) as [sg Hsg]; [cbn; constructor|]; rewrite Hsg; cbn [mbind option_bind]).
  all: repeat match goal with |- is_Some (match ?x with _ => _ end) => destruct x end; eauto.
Qed.

(** When nothing is locked every unfinished call can go on *)
Lemma free_steps s ths tid th : locks s ths -> ths !! tid = Some th -> finished th = false -> th ≠ Panicked ->
  (∀ a sg, sh_heap s !! a = Some sg -> cs_writer sg = None ∧ cs_readers sg = ∅) -> sh_init s = None ->
  ∃ ch, is_Some (tstep tid ch s th).
Proof.
  intros HL Ht Hf Hnp Hfree Hi.
  assert (Hx : ∀ a, a ∈ addrs th -> ∃ sg, sh_heap s !! a = Some sg ∧ cs_writer sg = None ∧ cs_readers sg = ∅).
  { intros a Ha. destruct (lk_addr _ _ HL _ _ _ Ht Ha) as [sg Hs]. exists sg. split; [done|]. by eapply Hfree. }
  assert (Hrange : ∀ must visited, may_end must (sh_index s) visited = false ->
            ∃ k a, k ∉ visited ∧ sh_index s !! k = Some a).
  { intros must visited Hm. unfold may_end in Hm. apply bool_decide_eq_false in Hm.
    apply map_not_Forall in Hm as (k & a & Hk & Hn); [|intros; apply _]. exists k.
    destruct (decide (k ∈ visited)); [tauto|]. destruct (decide (sh_index s !! k = Some a)); [eauto|tauto]. }
  destruct th; try discriminate Hf; try (by destruct Hnp).
  all: try (exists any_choice; cbn [tstep];
    try (destruct (Hx a) as (sg & Hsg & Hw & Hr); [cbn; constructor|]; rewrite Hsg; cbn [mbind option_bind];
         try (unfold lock; rewrite Hw; rewrite decide_True by done; cbn [mbind option_bind]);
         try (unfold rlock; rewrite Hw; cbn [mbind option_bind]);
         try rewrite Hw);
    try rewrite Hi;
    repeat match goal with |- is_Some (match ?x with _ => _ end) => destruct x end; eauto; fail).
  - destruct (may_end must (sh_index s) visited) eqn:E.
    + exists any_choice. cbn [tstep any_choice ch_key]. rewrite E. eauto.
    + destruct (Hrange _ _ E) as (k & a & Hk & Ha). exists (mk_choice (Some k) 0 []). cbn [tstep ch_key].
      rewrite decide_False by done. rewrite Ha. cbn. eauto.
  - destruct (may_end must (sh_index s) visited) eqn:E.
    + exists any_choice. cbn [tstep any_choice ch_key]. rewrite E. eauto.
    + destruct (Hrange _ _ E) as (k & a & Hk & Ha). exists (mk_choice (Some k) 0 []). cbn [tstep ch_key].
      rewrite decide_False by done. rewrite Ha. cbn. eauto.
Qed.

Lemma holder_dec (ths : list thread) : (∃ tid th, ths !! tid = Some th ∧ ((∃ a, holds_w th = Some a) ∨ (∃ a, holds_r th = Some a) ∨ holds_i th = true)) ∨
  (∀ tid th, ths !! tid = Some th -> holds_w th = None ∧ holds_r th = None ∧ holds_i th = false).
Proof.
  induction ths as [|th ths IH].
  - right. intros *. by rewrite lookup_nil.
  - destruct (holds_w th) as [a|] eqn:E1; [left; exists 0%nat, th; split; [done|]; eauto|].
    destruct (holds_r th) as [a|] eqn:E2; [left; exists 0%nat, th; split; [done|]; eauto|].
    destruct (holds_i th) eqn:E3; [left; exists 0%nat, th; split; [done|]; eauto|].
    destruct IH as [(tid & th2 & H & Hh)|IH]; [left; exists (S tid), th2; done|].
    right. intros [|tid] th2 H; [assert (Some th = Some th2) as [= <-] by exact H; done|]. eapply IH. exact H.
Qed.

Lemma step_enabled c tid ch th : ¬ crashed c -> cf_threads c !! tid = Some th -> is_Some (tstep tid ch (cf_sh c) th) ->
  is_Some (cstep c (LStep tid ch)).
Proof.
  intros Hnc Ht [[s' th'] Hs]. unfold cstep.
  destruct (existsb is_panicked (cf_threads c)) eqn:E.
  { exfalso. apply Hnc. apply existsb_exists in E as (x & Hin & Hx). destruct x; try discriminate Hx. by apply elem_of_list_In. }
  rewrite Ht. cbn [mbind option_bind]. rewrite Hs. cbn. eauto.
Qed.

Theorem no_deadlock m ls c : crun (initial m) ls = Some c -> ¬ crashed c -> ¬ quiescent c ->
  ∃ tid ch, is_Some (cstep c (LStep tid ch)).
Proof.
  intros H Hnc Hq. pose proof (locks_reach m ls c H) as HL. pose proof (held_by_reach m ls c H Hnc) as HB.
  destruct (holder_dec (cf_threads c)) as [(tid & th & Ht & Hh)|Hno].
  - exists tid, any_choice. eapply step_enabled; eauto. by eapply holder_steps.
  - assert (Hu : ∃ tid th, cf_threads c !! tid = Some th ∧ finished th = false).
    { unfold quiescent in Hq. clear -Hq. induction (cf_threads c) as [|th ths IH].
      - exfalso. apply Hq. intros th Hin. by inversion Hin.
      - destruct (finished th) eqn:E; [|by exists 0%nat, th]. destruct IH as (tid & th2 & H2 & Hf).
        + intros Hall. apply Hq. intros th2 Hin. apply elem_of_cons in Hin as [->|Hin]; auto.
        + by exists (S tid), th2. }
    destruct Hu as (tid & th & Ht & Hf).
    destruct (free_steps (cf_sh c) (cf_threads c) tid th HL Ht Hf) as (ch & Hs).
    + intros ->. apply Hnc. unfold crashed. apply elem_of_list_lookup. eauto.
    + intros a sg Ha. split.
      * destruct (cs_writer sg) as [t|] eqn:E; [|done]. destruct (hb_w _ _ HB _ _ _ Ha E) as (th2 & H2 & Hh).
        destruct (Hno _ _ H2) as (? & _). congruence.
      * apply set_eq. intros t. split; [|set_solver]. intros Hin. destruct (hb_r _ _ HB _ _ _ Ha Hin) as (th2 & H2 & Hh).
        destruct (Hno _ _ H2) as (_ & ? & _). congruence.
    + destruct (sh_init (cf_sh c)) as [t|] eqn:E; [|done]. destruct (hb_i _ _ HB _ E) as (th2 & H2 & Hh).
      destruct (Hno _ _ H2) as (_ & _ & ?). congruence.
    + exists tid, ch. by eapply step_enabled.
Qed.
