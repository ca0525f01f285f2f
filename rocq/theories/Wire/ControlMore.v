(** The orchestration service on bytes: when the node goes down, its table, the scheduler's requests. *)
From Coq Require Import Ascii String.
From stdpp Require Import prelude strings list gmap.
From Verif.Base Require Import Envelope.
From Verif.Json Require Import Spec SpecPb.
From Verif.Routing Require Import Model Spec ProofsTable ProofsProxy.
From Verif.Scheduler Require Import Model.
From Verif.Wire Require Import Format Model Spec Proofs Received Control SpecControl ControlProofs.
Open Scope list_scope.
Open Scope Z_scope.

(** ** When the node goes down *)
Lemma index_of_none x l : index_of x l = None <-> (x = None /\ l <> []) \/ exists l1 l2, l = l1 ++ None :: l2 /\ x ∉ l1.
Proof.
  induction l as [|y l IH]; cbn [index_of].
  { split; [done|]. by intros [[_ ?]|(l1 & l2 & E & _)]; [|destruct l1]. }
  destruct y as [y|]; cbn [mbind option_bind].
  2:{ split; [|done]. intros _. right. exists [], l. split; [done|apply not_elem_of_nil]. }
  destruct x as [x|]; cbn [mbind option_bind].
  2:{ split; [|done]. intros _. by left. }
  destruct ((r_start y =? r_start x) && (r_end y =? r_end x)) eqn:E.
  - split; [done|]. intros [[? _]|(l1 & l2 & El & Hn)]; [done|]. destruct l1 as [|z l1]; [done|]. injection El as <- _. exfalso. apply Hn.
    apply andb_true_iff in E as [E1 E2]. apply Z.eqb_eq in E1, E2. destruct x, y. cbn in *. subst. left.
  - assert (Hne : Some x <> Some y). { intros [= ->]. by rewrite !Z.eqb_refl in E. }
    destruct (index_of (Some x) l) as [i|]; cbn [mbind option_bind]; (split; [try done|]).
    + intros [[? _]|(l1 & l2 & El & Hn)]; [done|]. destruct l1 as [|z l1]; [done|]. injection El as <- ->.
      assert (Some i = None) as [=]. apply IH. right. exists l1, l2. split; [done|]. intros H. apply Hn. by right.
    + intros _. destruct (proj1 IH eq_refl) as [[? _]|(l1 & l2 & -> & Hn)]; [done|]. right. exists (Some y :: l1), l2. split; [done|].
      intros [H|H]%elem_of_cons; done.
    + done.
Qed.
Lemma remove_crash x o : remove_range x o = None <-> index_of x (slice_read (o_mem o) (o_ranges o)) = None.
Proof.
  unfold remove_range, slice_read. destruct (o_ranges o) as [s|]; [|done]. destruct (o_mem o !! sl_block s) as [b|]; [|done].
  destruct (index_of x (take (sl_len s) (b_cells b))) as [[i|]|]; done.
Qed.
Lemma nil_entry (m : gmap string (option (list range))) :
  mapM (fun kv : string * option (list range) => v ← kv.2; Some (kv.1, v)) (map_to_list m) = None <-> exists a, m !! a = Some None.
Proof.
  rewrite eq_None_not_Some. setoid_rewrite <-elem_of_map_to_list. generalize (map_to_list m) as l. intros l. split.
  - intros H. induction l as [|[k v] l IH]; [by destruct H|]. destruct v as [v|]; [|exists k; left].
    destruct IH as [a Ha]; [|exists a; by right]. intros [kvs E]. apply H. cbn. cbn in E. rewrite E. by eexists.
  - intros [a Ha] [kvs E]. apply mapM_Some in E. apply elem_of_list_lookup in Ha as [i Hi].
    destruct (Forall2_lookup_l _ _ _ _ _ E Hi) as (y & _ & [=]).
Qed.
Lemma down_iff grow nils addrs c s : control_call grow nils addrs c s None <->
  (exists b x, c = CallRemove b /\ unmarshal_range b = Some x /\
     let l := slice_read (o_mem (ag_orch s)) (list_ranges (ag_orch s)) in
     (x = None /\ l <> []) \/ exists l1 l2, l = l1 ++ None :: l2 /\ x ∉ l1) \/
  (exists b m a, c = CallSet b /\ unmarshal_assignment nils b = Some m /\ m !! a = Some None).
Proof.
  split.
  - destruct c as [b|b|b|b|k]; cbn [control_call]; intros H.
    + by destruct (unmarshal_range b).
    + left. destruct (unmarshal_range b) as [x|] eqn:E; [|done]. exists b, x. split; [done|]. split; [done|]. apply index_of_none, remove_crash.
      by destruct (remove_range x (ag_orch s)).
    + by destruct (unmarshal_nothing b).
    + right. destruct (unmarshal_assignment nils b) as [m|] eqn:E; [|done]. destruct (mapM _ _) as [kvs|] eqn:Em; [by destruct H as (t & _ & [=])|].
      apply nil_entry in Em as [a Ha]. by exists b, m, a.
    + by destruct H as (? & _ & [=]).
  - intros [(b & x & -> & E & H)|(b & m & a & -> & E & H)]; cbn [control_call]; rewrite E.
    + apply index_of_none, remove_crash in H. by rewrite H.
    + by rewrite (proj2 (nil_entry m) (ex_intro _ a H)).
Qed.
Lemma up grow nils addrs tr s c r : control_run grow nils addrs new_agent tr s -> Forall (fun ca => complete nils ca.1) tr -> complete nils c ->
  control_call grow nils addrs c s r -> is_Some r.
Proof.
  intros Hr Hc Hcc H. destruct r as [r|]; [done|exfalso]. apply down_iff in H as [(b & x & -> & E & H)|(b & m & a & -> & E & H)]; cbn [complete] in Hcc.
  - destruct H as [[-> _]|(l1 & l2 & El & _)]; [done|].
    apply run_orch in Hr. cbn [ag_orch new_agent] in Hr.
    destruct (orch_run_inv grow (asked tr) new_orch [] (complete_ops _ _ Hc) eq_refl) as (o & Eo & Hi). rewrite Hr in Eo. injection Eo as <-.
    rewrite (orch_inv_read _ _ Hi) in El. assert (Hin : None ∈ Some <$> ranges_spec [] (asked tr)) by (rewrite El; set_solver).
    by apply elem_of_list_fmap in Hin as (? & ? & _).
  - by eapply Hcc.
Qed.

(** ** A range that is not there *)
Definition poisoned (o : orch) : Prop := Forall (fun b => b_cells b !! 0%nat = Some None) (o_mem o).
Definition nonempty (o : orch) (sl : option slice) : Prop := exists s, sl = Some s /\ (1 <= sl_len s)%nat /\ is_Some (o_mem o !! sl_block s).
Lemma add_poisoned grow r o : poisoned o -> nonempty o (o_ranges o) -> poisoned (add_range grow r o) /\ nonempty (add_range grow r o) (o_ranges (add_range grow r o)) /\
  forall sl, nonempty o sl -> nonempty (add_range grow r o) sl.
Proof.
  intros Hp (s & Es & Hl & [b Hb]). unfold add_range. rewrite Es, Hb. pose proof (proj1 (Forall_lookup _ _) Hp _ _ Hb) as H0. cbn beta in H0.
  assert (Hc : forall x, (take (sl_len s) (b_cells b) ++ x) !! 0%nat = Some None).
  { intros x. rewrite lookup_app_l; [by rewrite lookup_take by lia|]. rewrite take_length. apply lookup_lt_Some in H0. lia. }
  destruct (sl_len s <? b_cap b)%nat; (split; [|split]).
  - unfold poisoned. cbn [o_mem]. apply Forall_insert; [done|]. cbn [b_cells]. apply Hc.
  - eexists. split; [done|]. cbn [sl_len sl_block o_mem]. split; [lia|]. rewrite list_lookup_insert by (by eapply lookup_lt_Some). by eexists.
  - intros sl (s' & -> & Hl' & Hb'). exists s'. split; [done|]. split; [done|]. cbn [o_mem]. apply lookup_lt_is_Some in Hb'. apply lookup_lt_is_Some. by rewrite insert_length.
  - unfold poisoned. cbn [o_mem]. apply Forall_app. split; [done|]. repeat constructor. cbn [b_cells]. apply Hc.
  - eexists. split; [done|]. cbn [sl_len sl_block o_mem]. split; [lia|]. rewrite lookup_app_r, Nat.sub_diag by lia. by eexists.
  - intros sl (s' & -> & Hl' & Hb'). exists s'. split; [done|]. split; [done|]. cbn [o_mem]. apply lookup_lt_is_Some in Hb'. apply lookup_lt_is_Some. rewrite app_length. lia.
Qed.
Lemma read_poisoned o sl : poisoned o -> nonempty o sl -> exists l, slice_read (o_mem o) sl = None :: l.
Proof.
  intros Hp (s & -> & Hl & [b Hb]). cbn [slice_read]. rewrite Hb. pose proof (proj1 (Forall_lookup _ _) Hp _ _ Hb) as H0. cbn beta in H0.
  destruct (b_cells b) as [|x l]; [done|]. injection H0 as ->. destruct (sl_len s); [lia|]. cbn. by eexists.
Qed.
Lemma poison_lasts grow nils addrs s tr s' : control_run grow nils addrs s tr s' ->
  poisoned (ag_orch s) -> nonempty (ag_orch s) (o_ranges (ag_orch s)) -> Forall (nonempty (ag_orch s)) (ag_listed s) ->
  forall c a, (c, a) ∈ tr -> (forall b, a <> Answered b) /\ (forall b x, c = CallRemove b -> unmarshal_range b <> Some x).
Proof.
  induction 1 as [|s c a s' tr s'' Hc _ IH]; intros Hp Ho Hl c' a' Hin; [by apply elem_of_nil in Hin|].
  destruct (read_poisoned _ _ Hp Ho) as [l El].
  destruct c as [b|b|b|b|k]; cbn [control_call] in Hc.
  - destruct (unmarshal_range b) as [x|]; injection Hc as -> ->; apply elem_of_cons in Hin as [[= -> ->]|Hin]; [done|..|done|by eapply IH].
    destruct (add_poisoned grow x _ Hp Ho) as (H1 & H2 & H3). eapply IH; [done..| |done]. cbn [ag_orch ag_listed]. eapply Forall_impl; [exact Hl|done].
  - destruct (unmarshal_range b) as [x|] eqn:E.
    + destruct (remove_range x (ag_orch s)) as [o|] eqn:Er; [|done]. exfalso.
      assert (remove_range x (ag_orch s) = None) as Hn; [|by rewrite Hn in Er].
      apply remove_crash. rewrite El. done.
    + injection Hc as -> ->. apply elem_of_cons in Hin as [[= -> ->]|Hin]; [|by eapply IH]. split; [done|]. intros b' x [= <-]. by rewrite E.
  - destruct (unmarshal_nothing b); injection Hc as -> ->; apply elem_of_cons in Hin as [[= -> ->]|Hin]; [done|..|done|by eapply IH].
    eapply IH; [done..| |done]. cbn [ag_orch ag_listed]. apply Forall_app. split; [done|]. by repeat constructor.
  - assert (Hs : ag_orch s' = ag_orch s /\ ag_listed s' = ag_listed s /\ forall b, a <> Answered b).
    { destruct (unmarshal_assignment nils b) as [m|]; [|by injection Hc as -> ->]. destruct (mapM _ _) as [kvs|]; [|done]. by destruct Hc as (t & _ & [= -> ->]). }
    destruct Hs as (E1 & E2 & E3). apply elem_of_cons in Hin as [[= -> ->]|Hin]; [done|]. rewrite E1, E2 in IH. by eapply IH.
  - destruct Hc as (sl & Hsl & [= -> ->]). apply elem_of_cons in Hin as [[= -> ->]|Hin]; [|by eapply IH]. split; [|done].
    pose proof (proj1 (Forall_lookup _ _) Hl _ _ Hsl) as Hne. destruct (read_poisoned _ _ Hp Hne) as [l' ->]. intros b. done.
Qed.
Lemma add_nothing grow nils addrs tr s : control_run grow nils addrs new_agent ((CallAdd "", Done) :: tr) s ->
  forall c a, (c, a) ∈ tr -> (forall b, a <> Answered b) /\ (forall b x, c = CallRemove b -> unmarshal_range b <> Some x).
Proof.
  intros H. inversion H as [|? ? ? s1 ? ? Hc Hr]; subst. cbn [control_call] in Hc. change (unmarshal_range "") with (Some (@None range)) in Hc.
  injection Hc as ->. eapply poison_lasts; [exact Hr|..]; cbn [ag_orch ag_listed new_agent].
  - by repeat constructor.
  - eexists. split; [done|]. cbn. split; [lia|by eexists].
  - constructor.
Qed.

(** ** The table *)
Lemma all_present (m : gmap string (option (list range))) kvs :
  mapM (fun kv : string * option (list range) => v ← kv.2; Some (kv.1, v)) (map_to_list m) = Some kvs ->
  forall a rs, (list_to_map kvs : gmap string (list range)) !! a = Some rs <-> m !! a = Some (Some rs).
Proof.
  intros E a rs. apply mapM_Some in E.
  assert (Hk : kvs.*1 = (map_to_list m).*1).
  { induction E as [|[k v] [k' v'] l l' H _ IH]; [done|]. cbn in H. destruct v as [v|]; [|done]. cbn in H. injection H as <- <-. cbn. by f_equal. }
  assert (Hnd : NoDup kvs.*1) by (rewrite Hk; apply NoDup_fst_map_to_list).
  rewrite <-elem_of_list_to_map by done. rewrite <-elem_of_map_to_list. clear Hnd Hk. split.
  - intros [i Hi]%elem_of_list_lookup. destruct (Forall2_lookup_r _ _ _ _ _ E Hi) as ([k v] & Hv & Hj). cbn in Hj. destruct v as [v|]; [|done]. cbn in Hj. injection Hj as -> ->.
    by eapply elem_of_list_lookup_2.
  - intros [i Hi]%elem_of_list_lookup. destruct (Forall2_lookup_l _ _ _ _ _ E Hi) as (y & Hy & Hj). cbn in Hj. injection Hj as <-. by eapply elem_of_list_lookup_2.
Qed.
Lemma set_routes grow nils addrs b m s r : NoDup addrs -> complete nils (CallSet b) -> unmarshal_assignment nils b = Some m ->
  control_call grow nils addrs (CallSet b) s r ->
  exists t, r = Some (mk_agent (ag_orch s) t (ag_listed s), Done) /\
    forall h i, i ∈ Model.lookup h t <-> exists a rs x, m !! a = Some (Some rs) /\ x ∈ rs /\ covers x h /\ (addrs !! i = Some a \/ i = 0%nat /\ a ∉ addrs).
Proof.
  intros Hnd Hc Em. cbn [control_call]. rewrite Em. destruct (mapM _ _) as [kvs|] eqn:Ek.
  2:{ apply nil_entry in Ek as [a Ha]. exfalso. by eapply Hc. }
  intros (t & Ht & ->). exists t. split; [done|]. intros h i. rewrite elem_of_lookup. setoid_rewrite (set_ranges_elem _ _ _ _ _ _ Ht). setoid_rewrite (all_present _ _ Ek). split.
  - intros (x & (a & rs & Ha & Hx & ->) & Hcov). exists a, rs, x. repeat split; try done; [by destruct Hcov..|].
    destruct (decide (a ∈ addrs)) as [Hin|Hin].
    + left. apply elem_of_list_lookup in Hin as [j Hj]. by rewrite (proj2 (addr_index_spec addrs a j Hnd) Hj).
    + right. by rewrite (addr_index_none addrs a Hin).
  - intros (a & rs & x & Ha & Hx & Hcov & H). exists x. split; [|done]. exists a, rs. split; [done|]. split; [done|].
    destruct H as [H|[-> H]]; [by rewrite (proj2 (addr_index_spec addrs a i Hnd) H)|by rewrite (addr_index_none addrs a H)].
Qed.

(** ** What the scheduler sends *)
Lemma assignment_round nils m s : (forall k rs, m !! k = Some rs -> Forall sized_range rs) -> marshal_table m = Some s -> fits s ->
  unmarshal_assignment nils s = Some (Some <$> m).
Proof.
  intros Hz Hm Hs. apply marshal_inv in Hm as [Ht ->].
  change (Proofs.small (enc_table m)) in Hs. unfold unmarshal_assignment, enc_table in *.
  rewrite merge_write; [|nums|done].
  replace (∅ : gmap string (option (list range))) with (Some <$> (∅ : gmap string (list range))) by apply fmap_empty.
  apply (read_put_map (assignment_step nils) (fun m => Some <$> m)). intros m0 key v Hv. unfold assignment_step. cbn [Z.eqb Pos.eqb].
  pose proof (small_entry _ _ _ _ _ Hs Hv) as Hse.
  rewrite (entry_read _ _ _ _ (Some v)); [by rewrite fmap_insert| | | |exact Hse].
  - apply (valid_all _ _ Ht). by eapply key_text.
  - assert (Proofs.small (enc_ranges v)) by (eapply small_in; [exact Hse|]; right; left).
    unfold dec_some_ranges. replace (default [] (if nils then None else Some [])) with (@nil range) by (by destruct nils).
    rewrite (msg_step _ _ v); [done|apply num_ranges|done|]. apply read_ranges; [by eapply Hz|done].
  - apply wire_ok_bytes. eapply small_fits; [exact Hse|]. right. left.
Qed.
Lemma map_present (m : gmap string (list range)) :
  exists kvs, mapM (fun kv : string * option (list range) => v ← kv.2; Some (kv.1, v)) (map_to_list (Some <$> m)) = Some kvs /\ (list_to_map kvs : gmap string (list range)) = m.
Proof.
  destruct (mapM _ _) as [kvs|] eqn:E.
  - exists kvs. split; [done|]. apply map_eq. intros a. apply option_eq. intros rs. rewrite (all_present _ _ E). rewrite lookup_fmap. destruct (m !! a) as [x|]; cbn; naive_solver.
  - apply nil_entry in E as [a Ha]. rewrite lookup_fmap in Ha. by destruct (m !! a).
Qed.
Lemma serves_bytes grow nils addrs tr s q c r :
  control_run grow nils addrs new_agent tr s -> Forall (fun ca => complete nils ca.1) tr ->
  sized_request q ->
  request_bytes q = Some c -> fits (call_bytes c) ->
  control_call grow nils addrs c s r ->
  exists s' a n n', r = Some (s', a) /\ a <> Refused /\ seen s = (Some <$> sn_ranges n, sn_table n) /\ serves addrs n q n' /\ seen s' = (Some <$> sn_ranges n', sn_table n').
Proof.
  intros Hr Hc Hz Hb Hf H. apply run_orch in Hr. cbn [ag_orch new_agent] in Hr.
  destruct (orch_run_inv grow (asked tr) new_orch [] (complete_ops _ _ Hc) eq_refl) as (o & E & Hi). rewrite Hr in E. injection E as <-.
  set (l := ranges_spec [] (asked tr)) in *. set (n := mk_sn l (ag_table s)).
  assert (Hn : seen s = (Some <$> sn_ranges n, sn_table n)). { unfold seen. by rewrite (orch_inv_read _ _ Hi). }
  destruct q as [|x|x|m]; cbn [request_bytes] in Hb.
  - injection Hb as <-. cbn [control_call] in H. change (unmarshal_nothing "") with (Some tt) in H. subst r. eexists _, _, n, n. by repeat split.
  - destruct (marshal_range (Some x)) as [b|] eqn:Eb; [|done]. injection Hb as <-. cbn [control_call call_bytes] in *.
    rewrite (range_round (Some x) b) in H; [|by intros ? [= <-]|done..]. subst r. eexists _, _, n, (mk_sn (l ++ [x]) (ag_table s)). repeat split; try done.
    unfold seen. cbn [ag_orch ag_table sn_ranges sn_table]. by rewrite (orch_inv_read _ _ (add_range_inv grow x _ _ Hi)).
  - destruct (marshal_range (Some x)) as [b|] eqn:Eb; [|done]. injection Hb as <-. cbn [control_call call_bytes] in *.
    rewrite (range_round (Some x) b) in H; [|by intros ? [= <-]|done..]. destruct (remove_range_inv x _ _ Hi) as (o' & Eo & Hi'). rewrite Eo in H. cbn [mbind option_bind] in H.
    subst r. eexists _, _, n, (mk_sn (remove_first x l) (ag_table s)). repeat split; try done.
    unfold seen. cbn [ag_orch ag_table sn_ranges sn_table]. by rewrite (orch_inv_read _ _ Hi').
  - destruct (marshal_table m) as [b|] eqn:Eb; [|done]. injection Hb as <-. cbn [control_call call_bytes] in *.
    rewrite (assignment_round nils m b) in H by done. destruct (map_present m) as (kvs & Ek & Em). rewrite Ek, Em in H. destruct H as (t & Ht & ->).
    eexists _, _, n, (mk_sn l t). split; [done|]. split; [done|]. split; [done|]. split; [by exists t|]. unfold seen. cbn [ag_orch ag_table sn_ranges sn_table]. by rewrite (orch_inv_read _ _ Hi).
Qed.
