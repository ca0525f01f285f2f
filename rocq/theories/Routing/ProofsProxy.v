(** Egress proxy, orchestrator agent, local reader. *)
From stdpp Require Import prelude gmap strings list.
From Coq Require Import ZifyBool.
From Verif.Base Require Import GoInt Envelope.
From Verif.Store Require Import Model Spec.
From Verif.Routing Require Import Model Spec ProofsTable.
Open Scope Z_scope.

(** ** Read routing *)
Lemma existsb_eqb l (idx : list nat) : existsb (Nat.eqb l) idx = true <-> l ∈ idx.
Proof.
  rewrite existsb_exists. split.
  - intros (x & Hx & E). apply Nat.eqb_eq in E as ->. by apply elem_of_list_In.
  - intros H. exists l. split; [by apply elem_of_list_In|apply Nat.eqb_refl].
Qed.
Lemma read_route_spec idx n l rnd :
  (∀ i, i ∈ idx -> (i < n)%nat) ->
  ∃ route, read_route_of idx n l rnd = Some route ∧
    (route = Unavailable <-> idx = []) ∧
    (l ∈ idx -> route = CallNode l) ∧
    (idx ≠ [] -> ∃ i, i ∈ idx ∧ route = CallNode i).
Proof.
  intros Hn. unfold read_route_of. destruct idx as [|i0 idx].
  { exists Unavailable. split; [done|]. split; [done|]. split; [intros H; by apply elem_of_nil in H|done]. }
  destruct (existsb (Nat.eqb l) (i0 :: idx)) eqn:E.
  - apply existsb_eqb in E. specialize (Hn l E). apply Nat.ltb_lt in Hn. rewrite Hn.
    exists (CallNode l). split; [done|]. split; [done|]. split; [done|]. intros _. eauto.
  - destruct (lookup_lt_is_Some_2 (i0 :: idx) (rnd mod length (i0 :: idx))) as [i Hi].
    { apply Nat.mod_upper_bound. simpl. lia. }
    setoid_rewrite Hi. cbn [mbind option_bind]. apply elem_of_list_lookup_2 in Hi.
    pose proof (Hn i Hi) as Hlt. apply Nat.ltb_lt in Hlt. rewrite Hlt.
    exists (CallNode i). split; [done|]. split; [done|]. split; [|eauto].
    intros Hl. apply existsb_eqb in Hl. congruence.
Qed.

(** ** Meta *)
Lemma gather_spec answers acc errs res errs' :
  gather answers acc errs = (res, errs') ->
  (∀ k, res !! k = match last_answer answers k with Some v => Some v | None => acc !! k end) ∧
  errs' = (errs + length (filter (fun a => a = None) answers))%nat.
Proof.
  revert acc errs. induction answers as [|a answers IH]; intros acc errs H; cbn [gather] in H.
  - simplify_eq. split; [done|]. simpl. lia.
  - destruct a as [m|].
    + destruct (IH _ _ H) as [H1 H2]. split.
      * intros k. rewrite H1. cbn [last_answer]. destruct (last_answer answers k); [done|].
        rewrite lookup_union. destruct (m !! k), (acc !! k); done.
      * rewrite H2. rewrite filter_cons, decide_False by done. done.
    + destruct (IH _ _ H) as [H1 H2]. split.
      * intros k. rewrite H1. cbn [last_answer]. by destruct (last_answer answers k).
      * rewrite H2. rewrite filter_cons, decide_True by done. simpl. lia.
Qed.
Lemma filter_all_length {A} (P : A -> Prop) `{∀ x, Decision (P x)} l :
  length (filter P l) = length l <-> Forall P l.
Proof.
  induction l as [|x l IH]; [split; [constructor|done]|]. rewrite filter_cons. destruct (decide (P x)) as [Hx|Hx].
  - simpl. rewrite Forall_cons. rewrite <-IH. split; [intros; split; [done|lia]|intros [? ?]; lia].
  - split.
    + intros E. pose proof (filter_length P l). simpl in E. lia.
    + intros HF. apply Forall_cons in HF as [? ?]. done.
Qed.

Lemma egress_meta_asked local t1 t2 li answers e e' res asked :
  egress_meta local t1 t2 li answers e = (e', res, asked) ->
  asked = expired t1 (eg_duration e) (if local then eg_local e else eg_remote e) ∧
  eg_duration e' = eg_duration e ∧
  (asked = false -> e' = e ∧ res = mc_resp <$> (if local then eg_local e else eg_remote e)) ∧
  (asked = true -> local = true -> res = mjoin (answers !! li)) ∧
  (asked = true -> local = false ->
     (res = None <-> Forall (fun a => a = None) answers) ∧
     ∀ m, res = Some m -> ∀ k, m !! k = last_answer answers k) ∧
  (asked = true -> ∀ m, res = Some m ->
     (if local then eg_local e' else eg_remote e') = Some (mk_mc t2 m)) ∧
  (asked = true -> res = None -> e' = e) ∧
  (if local then eg_remote e' = eg_remote e else eg_local e' = eg_local e).
Proof.
  unfold egress_meta. destruct local.
  - destruct (expired t1 (eg_duration e) (eg_local e)) eqn:Ex.
    + destruct (mjoin (answers !! li)) as [m|] eqn:Ea; intros [= <- <- <-]; repeat split; try done; naive_solver.
    + intros [= <- <- <-]. repeat split; try done; naive_solver.
  - destruct (expired t1 (eg_duration e) (eg_remote e)) eqn:Ex.
    + destruct (gather answers ∅ 0) as [r errs] eqn:Eg. destruct (gather_spec _ _ _ _ _ Eg) as [H1 H2].
      destruct (errs =? length answers)%nat eqn:En; intros [= <- <- <-].
      * apply Nat.eqb_eq in En. simpl in H2. rewrite H2 in En. apply filter_all_length in En.
        repeat split; try done; naive_solver.
      * apply Nat.eqb_neq in En. simpl in H2. rewrite H2 in En.
        assert (¬ Forall (fun a => a = None) answers) by (by rewrite <-filter_all_length).
        repeat split; try done; try naive_solver.
        intros m ? k. simplify_eq. rewrite H1, lookup_empty. by destruct (last_answer answers k).
    + intros [= <- <- <-]. repeat split; try done; naive_solver.
Qed.

Definition cache_of (local : bool) (e : egress) : option meta_cache := if local then eg_local e else eg_remote e.

Lemma meta_run_fresh li cs e e' evs i ev :
  meta_run li e cs = (e', evs) -> evs !! i = Some ev -> ev_asked ev = false ->
  is_Some (ev_result ev) ∧
  ((∃ j ev', (j < i)%nat ∧ evs !! j = Some ev' ∧ ev_asked ev' = true ∧
      c_local (ev_call ev') = c_local (ev_call ev) ∧ ev_result ev' = ev_result ev ∧
      c_t1 (ev_call ev) <= c_t2 (ev_call ev') + eg_duration e) ∨
   (∃ c, cache_of (c_local (ev_call ev)) e = Some c ∧ ev_result ev = Some (mc_resp c) ∧
      c_t1 (ev_call ev) <= mc_time c + eg_duration e)).
Proof.
  revert e e' evs i. induction cs as [|c cs IH]; intros e e' evs i H Hi Ha; cbn [meta_run] in H.
  - simplify_eq. 
  - destruct (egress_meta (c_local c) (c_t1 c) (c_t2 c) li (c_answers c) e) as [[e1 res] asked] eqn:E.
    destruct (meta_run li e1 cs) as [e2 evs2] eqn:E2. injection H as <- <-.
    destruct (egress_meta_asked _ _ _ _ _ _ _ _ _ E) as (H1 & Hd & H2 & H3 & H4 & H5 & H6 & H7).
    destruct i as [|i]; simpl in Hi.
    + injection Hi as <-. simpl in *. destruct (H2 Ha) as [-> ->]. rewrite Ha in H1. symmetry in H1. clear Ha. rename H1 into Ha.
      fold (cache_of (c_local c) e) in *. unfold expired in Ha. destruct (cache_of (c_local c) e) as [mc|] eqn:Ec; [|done].
      split; [eauto|]. right. exists mc. simpl. split; [done|]. split; [done|]. lia.
    + destruct (IH e1 e2 evs2 i E2 Hi Ha) as [Hs [(j & ev' & Hj & Hj' & P)|(mc & Hc & Hr & Ht)]].
      * split; [done|]. left. exists (S j), ev'. rewrite Hd in P. split; [lia|done].
      * split; [done|]. destruct (decide (asked = true ∧ is_Some res ∧ c_local c = c_local (ev_call ev))) as [(Hask & [m Hm] & Hl)|Hn].
        -- left. exists 0%nat, (mk_event c res asked). split; [lia|]. split; [done|]. simpl.
           split; [done|]. split; [done|].
           specialize (H5 Hask m Hm). fold (cache_of (c_local c) e1) in H5. rewrite Hl, Hc in H5. simplify_eq. simpl in *.
           split; [done|]. rewrite Hd in Ht. done.
        -- right. exists mc. rewrite Hd in Ht. split; [|done].
           destruct asked; [|by destruct (H2 eq_refl) as [-> _]].
           destruct res as [m|]; [|by rewrite <-(H6 eq_refl eq_refl)].
           assert (Hne : c_local c ≠ c_local (ev_call ev)) by naive_solver.
           unfold cache_of in *. destruct (c_local c), (c_local (ev_call ev)); try done; congruence.
Qed.

(** ** Orchestrator *)
Definition orch_inv (o : orch) (l : list range) : Prop :=
  match o_ranges o with
  | None => l = []
  | Some s => ∃ b, o_mem o !! sl_block s = Some b ∧ take (sl_len s) (b_cells b) = Some <$> l ∧ sl_len s = length l
  end.
Lemma orch_inv_read o l : orch_inv o l -> slice_read (o_mem o) (list_ranges o) = Some <$> l.
Proof.
  unfold orch_inv, slice_read, list_ranges. destruct (o_ranges o) as [s|]; [|by intros ->].
  intros (b & -> & E & _). done.
Qed.
Lemma add_range_inv grow r o l : orch_inv o l -> orch_inv (add_range grow (Some r) o) (l ++ [r]).
Proof.
  unfold orch_inv, add_range. destruct (o_ranges o) as [s|].
  - intros (b & Hb & E & Hl). rewrite Hb.
    assert (Hlen : length (take (sl_len s) (b_cells b)) = sl_len s) by (rewrite E, fmap_length; done).
    destruct (sl_len s <? b_cap b)%nat.
    + simpl. eexists. split; [apply list_lookup_insert; by eapply lookup_lt_Some|]. simpl.
      rewrite app_length. simpl. split; [|lia].
      rewrite cons_middle, app_assoc. rewrite take_app_alt by (rewrite app_length, Hlen; simpl; lia).
      rewrite E, fmap_app. done.
    + simpl. eexists. split; [rewrite lookup_app_r, Nat.sub_diag by lia; done|]. simpl.
      rewrite app_length. simpl. split; [|lia]. rewrite take_ge by (rewrite app_length, Hlen; simpl; lia).
      by rewrite E, fmap_app.
  - intros ->. simpl. eexists. split; [rewrite lookup_app_r, Nat.sub_diag by lia; done|]. done.
Qed.

Lemma index_of_spec r l :
  match index_of (Some r) (Some <$> l) with
  | None => False
  | Some None => remove_first r l = l ∧ r ∉ l
  | Some (Some i) => ∃ x, l !! i = Some x ∧ x = r ∧ remove_first r l = take i l ++ drop (S i) l
  end.
Proof.
  induction l as [|x l IH]; cbn [index_of fmap list_fmap]; [split; [done|apply not_elem_of_nil]|].
  cbn [mbind option_bind]. destruct ((r_start x =? r_start r) && (r_end x =? r_end r)) eqn:E.
  - exists x. split; [done|]. assert (Hx : x = r) by (destruct x, r; simpl in *; f_equal; lia).
    split; [done|]. cbn [remove_first]. rewrite decide_True by done. cbn [take drop app]. by rewrite drop_0.
  - assert (Hx : x ≠ r). { intros ->. rewrite !Z.eqb_refl in E. done. }
    destruct (index_of (Some r) (Some <$> l)) as [[i|]|] eqn:Ei; [| |done];
      cbn [mbind option_bind option_map].
    + destruct IH as (y & H1 & H2 & H3). exists y. split; [done|]. split; [done|].
      cbn [remove_first]. rewrite decide_False by done. cbn [take drop app]. by rewrite H3.
    + destruct IH as [H1 H2]. split.
      * cbn [remove_first]. rewrite decide_False by done. by rewrite H1.
      * set_solver.
Qed.

Lemma remove_range_inv r o l :
  orch_inv o l -> ∃ o', remove_range (Some r) o = Some o' ∧ orch_inv o' (remove_first r l).
Proof.
  unfold orch_inv, remove_range. destruct (o_ranges o) as [s|] eqn:Eo.
  - intros (b & Hb & E & Hl). rewrite Hb, E.
    pose proof (index_of_spec r l) as HI.
    destruct (index_of (Some r) (Some <$> l)) as [[i|]|] eqn:Ei; [| |done]; cbn [mbind option_bind].
    + destruct HI as (x & H1 & _ & H3). eexists. split; [done|]. simpl.
      eexists. split; [apply list_lookup_insert; by eapply lookup_lt_Some|]. simpl. rewrite H3.
      pose proof (lookup_lt_Some _ _ _ H1) as Hi.
      assert (Hll : length (take i l ++ drop (S i) l) = (sl_len s - 1)%nat).
      { rewrite app_length, take_length, drop_length. lia. }
      split; [|done]. rewrite app_assoc, take_app_alt.
      * by rewrite fmap_app, fmap_take, fmap_drop.
      * rewrite <-fmap_take, <-fmap_drop, <-fmap_app, fmap_length. done.
    + destruct HI as [H1 _]. exists o. split; [done|]. rewrite Eo, H1. eauto.
  - intros ->. exists o. split; [done|]. by rewrite Eo.
Qed.

Lemma orch_run_inv grow ps o l :
  Forall has_range ps -> orch_inv o l -> ∃ o', orch_run grow o ps = Some o' ∧ orch_inv o' (ranges_spec l ps).
Proof.
  revert o l. induction ps as [|p ps IH]; intros o l Hf Hi; cbn [orch_run]; [eauto|].
  apply Forall_cons in Hf as [Hp Hf]. destruct p as [[r|]|[r|]]; try (by destruct Hp); cbn [orch_step mbind option_bind ranges_spec].
  - apply IH; [done|]. by apply add_range_inv.
  - destruct (remove_range_inv r o l Hi) as (o' & E & Hi'). rewrite E. cbn [mbind option_bind]. by apply IH.
Qed.

(** Additions leave an earlier answer alone. *)
Definition keeps (mem0 : list block) (s : slice) (o : orch) : Prop :=
  slice_read (o_mem o) (Some s) = slice_read mem0 (Some s) ∧
  (sl_block s < length (o_mem o))%nat ∧
  ∃ cur, o_ranges o = Some cur ∧ (sl_block cur = sl_block s -> (sl_len s <= sl_len cur)%nat) ∧
    ∃ b, o_mem o !! sl_block cur = Some b ∧ (sl_len cur <= length (b_cells b))%nat.
Lemma add_keeps grow r mem0 s o : keeps mem0 s o -> keeps mem0 s (add_range grow r o).
Proof.
  intros (Hr & Hlt & cur & Ec & Hle & b & Hb & Hlen). unfold add_range. rewrite Ec, Hb.
  destruct (sl_len cur <? b_cap b)%nat eqn:E.
  - split; [|split].
    + rewrite <-Hr. simpl. destruct (decide (sl_block cur = sl_block s)) as [He|Hne].
      * rewrite He, list_lookup_insert by done. rewrite <-He, Hb. simpl.
        rewrite take_app_le by (rewrite take_length; specialize (Hle He); lia).
        rewrite take_take. f_equal. specialize (Hle He). lia.
      * by rewrite list_lookup_insert_ne.
    + simpl. by rewrite insert_length.
    + simpl. eexists. split; [done|]. simpl. split; [intros; specialize (Hle H); lia|].
      eexists. split; [apply list_lookup_insert; by eapply lookup_lt_Some|]. simpl.
      rewrite app_length, take_length. simpl. lia.
  - split; [|split].
    + rewrite <-Hr. simpl. by rewrite lookup_app_l.
    + simpl. rewrite app_length. simpl. lia.
    + simpl. eexists. split; [done|]. simpl. split; [intros; lia|].
      eexists. split; [rewrite lookup_app_r, Nat.sub_diag by lia; done|]. simpl.
      rewrite app_length, take_length. simpl. lia.
Qed.
Lemma adds_keep grow ps mem0 s o o' :
  Forall is_add ps -> keeps mem0 s o -> orch_run grow o ps = Some o' -> keeps mem0 s o'.
Proof.
  revert o. induction ps as [|p ps IH]; intros o Hf Hk; cbn [orch_run]; [by intros [= <-]|].
  apply Forall_cons in Hf as [Hp Hf]. destruct p as [r|r]; [|done]. cbn [orch_step mbind option_bind].
  apply IH; [done|]. by apply add_keeps.
Qed.
Lemma list_ranges_stable grow ps1 ps2 o1 o2 :
  Forall has_range ps1 -> Forall is_add ps2 ->
  orch_run grow new_orch ps1 = Some o1 -> orch_run grow o1 ps2 = Some o2 ->
  slice_read (o_mem o2) (list_ranges o1) = slice_read (o_mem o1) (list_ranges o1).
Proof.
  intros Hf Ha H1 H2.
  destruct (orch_run_inv grow ps1 new_orch [] Hf eq_refl) as (o1' & E & Hi). simplify_eq.
  unfold list_ranges. destruct (o_ranges o1) as [s|] eqn:Es; [|done].
  unfold orch_inv in Hi. rewrite Es in Hi. destruct Hi as (b & Hb & Hl & Hlen).
  assert (keeps (o_mem o1) s o1).
  { split; [done|]. split; [by eapply lookup_lt_Some|]. exists s. split; [done|]. split; [done|].
    exists b. split; [done|]. apply (f_equal length) in Hl. rewrite take_length, fmap_length in Hl. lia. }
  by destruct (adds_keep _ _ _ _ _ _ Ha H H2).
Qed.

(** ** Reader *)
Lemma to_query_spec compile now rq :
  match to_query compile now rq with
  | None => ¬ acceptable compile rq
  | Some q => acceptable compile rq ∧ resolved compile now rq q ∧ 1 <= q_limit q <= 1000 ∧
      q_types q = (match filter (fun t => t ≠ T_ANY) (rr_types rq) with [] => None | ts => Some ts end)
  end.
Proof.
  unfold to_query, acceptable.
  destruct (negb (rr_end rq =? 0) && (rr_end rq <? rr_start rq)) eqn:E1; [lia|].
  destruct (1000 <? rr_limit rq) eqn:E2; [lia|].
  destruct (rr_limit rq <? 0) eqn:E3; [lia|].
  destruct (bool_decide (rr_name rq = "")) eqn:E4.
  - apply bool_decide_eq_true in E4. cbn [mbind option_bind].
    split; [split; [lia|split; [lia|by left]]|]. split.
    + constructor; simpl; try done; destruct (Z.eqb_spec (rr_end rq) 0), (Z.eqb_spec (rr_limit rq) 0); try (split; lia); try done; split; intros; congruence.
    + cbn [q_limit q_types]. split; [destruct (Z.eqb_spec (rr_limit rq) 0); lia|by destruct (filter _ _)].
  - apply bool_decide_eq_false in E4. destruct (compile (rr_name rq)) as [f|] eqn:Ef; cbn [fmap option_fmap option_map mbind option_bind].
    + split; [split; [lia|split; [lia|right; eauto]]|]. split.
      * constructor; simpl; try done; destruct (Z.eqb_spec (rr_end rq) 0), (Z.eqb_spec (rr_limit rq) 0); try (split; lia); try done; split; intros; congruence.
      * cbn [q_limit q_types]. split; [destruct (Z.eqb_spec (rr_limit rq) 0); lia|by destruct (filter _ _)].
    + intros (_ & _ & [?|[? ?]]); congruence.
Qed.

Lemma to_query_types compile now rq q e :
  to_query compile now rq = Some q -> wanted_type (q_types q) e <-> requested_type (rr_types rq) e.
Proof.
  intros H. pose proof (to_query_spec compile now rq) as HS. rewrite H in HS. destruct HS as (_ & _ & _ & Ht).
  rewrite Ht. unfold wanted_type, requested_type.
  assert (Hel : ∀ t, t ∈ filter (fun t => t ≠ T_ANY) (rr_types rq) <-> t ≠ T_ANY ∧ t ∈ rr_types rq) by (intros t; rewrite elem_of_list_filter; done).
  destruct (filter (fun t => t ≠ T_ANY) (rr_types rq)) as [|t0 ts] eqn:Ef.
  - split; [|done]. intros _. left. intros t Ht'. destruct (decide (t = T_ANY)); [done|].
    exfalso. apply (not_elem_of_nil t). apply Hel. done.
  - split.
    + intros (t & H1 & H2). apply Hel in H1 as [? ?]. right. eauto.
    + intros [Hall|(t & H1 & H2 & H3)].
      * exfalso. assert (H0 : t0 ∈ t0 :: ts) by set_solver. apply Hel in H0 as [H0 H0']. by apply H0, Hall.
      * exists t. split; [|done]. apply Hel. done.
Qed.
