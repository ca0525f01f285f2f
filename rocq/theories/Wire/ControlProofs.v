(** The orchestration service on bytes. *)
From Coq Require Import Ascii String.
From stdpp Require Import prelude strings list gmap.
From Verif.Base Require Import Envelope.
From Verif.Json Require Import Spec SpecPb.
From Verif.Routing Require Import Model Spec ProofsTable ProofsProxy.
From Verif.Scheduler Require Import Model.
From Verif.Wire Require Import Format Model Spec Proofs Received Control SpecControl.
Open Scope list_scope.
Open Scope Z_scope.

(** ** Ranges that were decoded are 64-bit numbers *)
Lemma range_step_sized r f r' : read_ok f.2 -> sized_range r -> range_step r f = Some r' -> sized_range r'.
Proof.
  destruct f as [k w]. cbn [snd]. intros Hf [H1 H2]. unfold range_step.
  destruct (k =? 1); [|destruct (k =? 2)]; [apply (get_int_inv sized_range); [done|by split|]; intros x Hx; by split..|by intros [= <-]].
Qed.
Lemma zero_sized : sized_range (mk_range 0 0).
Proof. by split. Qed.
Lemma unmarshal_range_sized s r : unmarshal_range s = Some (Some r) -> sized_range r.
Proof.
  unfold unmarshal_range. intros H.
  revert H. enough (G : forall o, merge one_range_step None s = Some o -> forall r, o = Some r -> sized_range r) by (intros H; by eapply G).
  intros o H. apply (merge_inv one_range_step (fun o => forall r, o = Some r -> sized_range r) None o s); [|by intros ? ?|exact H].
  clear. intros o [k w] o' _ Ho E. unfold one_range_step in E. destruct (k =? 1); [|by injection E as <-].
  apply (get_msg_inv range_step sized_range (fun o => forall r, o = Some r -> sized_range r) (default (mk_range 0 0) o) w o Some o'); [..|exact E].
  - intros; by eapply range_step_sized.
  - destruct o as [o|]; [by apply Ho|apply zero_sized].
  - done.
  - by intros x Hx r [= ->].
Qed.

(** ** The list of ranges *)
Lemma run_orch grow nils addrs s tr s' : control_run grow nils addrs s tr s' -> orch_run grow (ag_orch s) (asked tr) = Some (ag_orch s').
Proof.
  induction 1 as [|s c a s' tr s'' Hc _ IH]; [done|]. unfold asked. rewrite bind_cons. fold (asked tr). cbn [fst].
  destruct c as [b|b|b|b|k]; cbn [control_call asks] in *.
  - destruct (unmarshal_range b) as [x|]; injection Hc as -> ->; [|done]. cbn [app orch_run orch_step mbind option_bind]. done.
  - destruct (unmarshal_range b) as [x|]; [|by injection Hc as -> ->]. cbn [app orch_run orch_step].
    destruct (remove_range x (ag_orch s)) as [o|]; [|done]. cbn [mbind option_bind] in *. by injection Hc as -> ->.
  - destruct (unmarshal_nothing b); by injection Hc as -> ->.
  - destruct (unmarshal_assignment nils b) as [m|]; [|by injection Hc as -> ->].
    destruct (mapM _ _) as [kvs|]; [|done]. by destruct Hc as (t & _ & [= -> ->]).
  - by destruct Hc as (sl & _ & [= -> ->]).
Qed.
Lemma run_listed grow nils addrs s tr s' : control_run grow nils addrs s tr s' -> exists l, ag_listed s' = ag_listed s ++ l.
Proof.
  induction 1 as [s|s c a s' tr s'' Hc _ [l IH]]; [exists []; by rewrite app_nil_r|].
  assert (exists l', ag_listed s' = ag_listed s ++ l') as [l' E].
  { destruct c as [b|b|b|b|k]; cbn [control_call] in Hc.
    - destruct (unmarshal_range b); injection Hc as -> ->; exists []; by rewrite app_nil_r.
    - destruct (unmarshal_range b); [destruct (remove_range _ _); [|done]; cbn [mbind option_bind] in Hc|]; injection Hc as -> ->; exists []; by rewrite app_nil_r.
    - destruct (unmarshal_nothing b); injection Hc as -> ->; [by eexists|exists []; by rewrite app_nil_r].
    - exists []. rewrite app_nil_r. destruct (unmarshal_assignment nils b) as [m|]; [|by injection Hc as -> ->].
      destruct (mapM _ _) as [kvs|]; [|done]. by destruct Hc as (t & _ & [= -> ->]).
    - exists []. rewrite app_nil_r. by destruct Hc as (sl & _ & [= -> ->]). }
  exists (l' ++ l). by rewrite IH, E, app_assoc.
Qed.
Lemma complete_ops nils tr : Forall (fun ca => complete nils ca.1) tr -> Forall has_range (asked tr).
Proof.
  intros H. unfold asked. induction H as [|[c a] tr Hc _ IH]; [constructor|]. rewrite bind_cons. apply Forall_app. split; [|exact IH].
  destruct c as [b|b|b|b|k]; cbn [fst asks complete] in *; try constructor.
  all: destruct (unmarshal_range b) as [[x|]|]; [repeat constructor; by eexists|done|constructor].
Qed.
Lemma kept_ops tr : Forall (fun ca : control * reply => ~ removes ca.1) tr -> Forall is_add (asked tr).
Proof.
  intros H. unfold asked. induction H as [|[c a] tr Hc _ IH]; [constructor|]. rewrite bind_cons. apply Forall_app. split; [|exact IH].
  destruct c as [b|b|b|b|k]; cbn [fst asks removes] in *; try constructor; [|done]. destruct (unmarshal_range b); by repeat constructor.
Qed.
Lemma ranges_spec_from l ps r : r ∈ ranges_spec l ps -> r ∈ l \/ AddRange (Some r) ∈ ps.
Proof.
  assert (Hrm : forall x y k, x ∈ remove_first y k -> x ∈ k).
  { intros x y k. induction k as [|z k IH]; cbn [remove_first]; [done|]. case_decide; set_solver. }
  revert l. induction ps as [|p ps IH]; intros l; [by left|]. destruct p as [[x|]|[x|]]; cbn [ranges_spec]; intros H; apply IH in H as [H|H].
  all: try (by right; right). all: try (by left).
  - apply elem_of_app in H as [H|H]; [by left|]. apply elem_of_list_singleton in H as ->. right. left.
  - left. by eapply Hrm.
Qed.
Lemma asked_sized tr r : AddRange (Some r) ∈ asked tr -> sized_range r.
Proof.
  unfold asked. intros H. apply elem_of_list_bind in H as ([c a] & H & _). destruct c as [b|b|b|b|k]; cbn [fst asks] in H; try by apply elem_of_nil in H.
  - destruct (unmarshal_range b) as [x|] eqn:E; [|by apply elem_of_nil in H]. apply elem_of_list_singleton in H. injection H as <-. by eapply unmarshal_range_sized.
  - destruct (unmarshal_range b) as [x|]; [|by apply elem_of_nil in H]. apply elem_of_list_singleton in H. done.
Qed.
Lemma mapM_some {A} (l : list A) : mapM id (Some <$> l) = Some l.
Proof. induction l as [|x l IH]; [done|]. cbn. cbn in IH. by rewrite IH. Qed.
Lemma marshal_some rs : marshal_listed (Some <$> rs) = Some (write_fields (enc_ranges rs)).
Proof. unfold marshal_listed. by rewrite mapM_some. Qed.

Lemma listed_now grow nils addrs tr s b s1 k tr2 s2 r :
  control_run grow nils addrs new_agent tr s -> Forall (fun ca => complete nils ca.1) tr ->
  control_call grow nils addrs (CallList b) s (Some (s1, Promised k)) ->
  control_run grow nils addrs s1 tr2 s2 -> Forall (fun ca => ~ removes ca.1) tr2 ->
  control_call grow nils addrs (Encode k) s2 r ->
  exists b', r = Some (s2, Answered b') /\ (fits b' -> unmarshal_ranges b' = Some (ranges_spec [] (asked tr))).
Proof.
  intros Hr Hc Hl Hr2 Hn He. apply run_orch in Hr. cbn [ag_orch new_agent] in Hr.
  cbn [control_call] in Hl. destruct (unmarshal_nothing b); [|done]. injection Hl as -> ->.
  pose proof (run_listed _ _ _ _ _ _ Hr2) as [l El]. apply run_orch in Hr2. cbn [ag_orch ag_listed] in *.
  destruct He as (sl & Hsl & ->). rewrite El, <-app_assoc, lookup_app_r, Nat.sub_diag in Hsl by done. injection Hsl as <-.
  rewrite (list_ranges_stable _ _ _ _ _ (complete_ops _ _ Hc) (kept_ops _ Hn) Hr Hr2).
  destruct (orch_run_inv grow (asked tr) new_orch [] (complete_ops _ _ Hc) eq_refl) as (o & E & Hi).
  rewrite Hr in E. injection E as <-. rewrite (orch_inv_read _ _ Hi), marshal_some. eexists. split; [done|]. intros Hf.
  apply ranges_round; [|done..]. apply Forall_forall. intros x Hx. apply ranges_spec_from in Hx as [Hx|Hx]; [by apply elem_of_nil in Hx|]. by eapply asked_sized.
Qed.

(** ** Answers in general: ranges that were added *)
Section cells.
Context (P : range -> Prop).
Definition cells_ok (o : orch) : Prop := forall b c, b ∈ o_mem o -> c ∈ b_cells b -> exists r, c = Some r /\ P r.
Definition within (o : orch) (sl : option slice) : Prop :=
  match sl with None => True | Some s => exists b, o_mem o !! sl_block s = Some b /\ (sl_len s <= length (b_cells b))%nat end.
Lemma elem_of_insert_block (l : list block) i x y : y ∈ <[i := x]> l -> y = x \/ y ∈ l.
Proof.
  revert i. induction l as [|z l IH]; intros [|i] H; cbn in H; [by right..| |].
  - apply elem_of_cons in H as [H|H]; [by left|right; by right].
  - apply elem_of_cons in H as [->|H]; [right; left|]. apply IH in H as [H|H]; [by left|right; by right].
Qed.
Lemma add_cells grow r o : cells_ok o -> P r -> cells_ok (add_range grow (Some r) o).
Proof.
  intros H Hp. unfold add_range. destruct (o_ranges o) as [s|].
  - destruct (o_mem o !! sl_block s) as [b|] eqn:Eb; [|done]. apply elem_of_list_lookup_2 in Eb.
    destruct (sl_len s <? b_cap b)%nat; intros b' c; cbn [o_mem].
    + intros [-> |Hb]%elem_of_insert_block; [|by eapply H]. cbn [b_cells]. rewrite !elem_of_app, elem_of_list_singleton.
      intros [Hc|[-> |Hc]]; [|by eexists|]; eapply H; try exact Eb; [apply elem_of_take in Hc as (i & Hc & _); by eapply elem_of_list_lookup_2|].
      apply elem_of_list_lookup in Hc as [i Hc]. rewrite lookup_drop in Hc. by eapply elem_of_list_lookup_2.
    + intros [Hb|Hb%elem_of_list_singleton]%elem_of_app; [by eapply H|]. subst b'. cbn [b_cells]. rewrite elem_of_app, elem_of_list_singleton.
      intros [Hc| ->]; [|by eexists]. eapply H; [exact Eb|]. apply elem_of_take in Hc as (i & Hc & _); by eapply elem_of_list_lookup_2.
  - intros b' c. cbn [o_mem]. intros [Hb|Hb%elem_of_list_singleton]%elem_of_app; [by eapply H|]. subst b'. cbn [b_cells].
    intros ->%elem_of_list_singleton. by eexists.
Qed.
Lemma remove_cells r o o' : cells_ok o -> remove_range r o = Some o' -> cells_ok o'.
Proof.
  intros H. unfold remove_range. destruct (o_ranges o) as [s|]; [|by intros [= <-]].
  destruct (o_mem o !! sl_block s) as [b|] eqn:Eb; [|by intros [= <-]]. apply elem_of_list_lookup_2 in Eb.
  destruct (index_of r (take (sl_len s) (b_cells b))) as [[i|]|]; [| |done]; cbn [mbind option_bind]; intros [= <-]; [|done].
  intros b' c. cbn [o_mem]. intros [-> |Hb]%elem_of_insert_block; [|by eapply H]. cbn [b_cells].
  intros Hc. eapply H; [exact Eb|].
  assert (Hd : forall n (l : list (option range)), c ∈ drop n l -> c ∈ l).
  { intros n l [j Hj]%elem_of_list_lookup. rewrite lookup_drop in Hj. by eapply elem_of_list_lookup_2. }
  assert (Ht : forall n (l : list (option range)), c ∈ take n l -> c ∈ l).
  { intros n l (j & Hj & _)%elem_of_take. by eapply elem_of_list_lookup_2. }
  rewrite !elem_of_app in Hc. destruct Hc as [Hc|[Hc|Hc]]; eauto.
Qed.
Lemma add_within grow r o sl : within o sl -> within o (o_ranges o) -> within (add_range grow r o) sl /\ within (add_range grow r o) (o_ranges (add_range grow r o)).
Proof.
  intros Hs Ho. unfold add_range. destruct (o_ranges o) as [cur|] eqn:Ec.
  - destruct Ho as (b & Eb & Hl). rewrite Eb. pose proof (lookup_lt_Some _ _ _ Eb) as Hlt. destruct (sl_len cur <? b_cap b)%nat; split; cbn [within o_ranges o_mem sl_block sl_len].
    + destruct sl as [s|]; [|done]. destruct Hs as (b1 & Eb1 & Hl1). cbn [within o_mem].
      destruct (decide (sl_block cur = sl_block s)) as [E|E].
      * rewrite E, list_lookup_insert by (by rewrite <-E). eexists. split; [done|]. cbn [b_cells]. rewrite E in Eb. rewrite Eb in Eb1. injection Eb1 as <-.
        rewrite !app_length, take_length, drop_length. cbn [length]. lia.
      * rewrite list_lookup_insert_ne by done. eauto.
    + rewrite list_lookup_insert by done. eexists. split; [done|]. cbn [b_cells]. rewrite !app_length, take_length, drop_length. cbn [length]. lia.
    + destruct sl as [s|]; [|done]. destruct Hs as (b1 & Eb1 & Hl1). cbn [within o_mem]. rewrite lookup_app_l by (by eapply lookup_lt_Some). eauto.
    + rewrite lookup_app_r, Nat.sub_diag by lia. eexists. split; [done|]. cbn [b_cells]. rewrite app_length, take_length. cbn [length]. lia.
  - split; cbn [within o_ranges o_mem sl_block sl_len].
    + destruct sl as [s|]; [|done]. destruct Hs as (b1 & Eb1 & Hl1). cbn [within o_mem]. rewrite lookup_app_l by (by eapply lookup_lt_Some). eauto.
    + rewrite lookup_app_r, Nat.sub_diag by lia. eexists. split; [done|]. cbn. lia.
Qed.
Lemma index_of_lt r l i : index_of r l = Some (Some i) -> (i < length l)%nat.
Proof.
  revert i. induction l as [|x l IH]; intros i; cbn [index_of]; [done|]. destruct x as [x|]; [|done]. destruct r as [r|]; [|done]. cbn [mbind option_bind].
  case_match; [intros [= <-]; cbn; lia|]. destruct (index_of (Some r) l) as [[j|]|]; cbn; [|done..]. intros [= <-]. pose proof (IH j eq_refl). lia.
Qed.
Lemma remove_within r o o' sl : within o sl -> within o (o_ranges o) -> remove_range r o = Some o' -> within o' sl /\ within o' (o_ranges o').
Proof.
  intros Hs Ho. unfold remove_range. destruct (o_ranges o) as [cur|] eqn:Ec; [|intros [= <-]; by rewrite Ec].
  destruct Ho as (b & Eb & Hl). rewrite Eb. pose proof (lookup_lt_Some _ _ _ Eb) as Hlt.
  destruct (index_of r (take (sl_len cur) (b_cells b))) as [[i|]|] eqn:Ei; [| |done]; cbn [mbind option_bind]; intros [= <-].
  2:{ rewrite Ec. split; [done|]. by exists b. }
  apply index_of_lt in Ei. rewrite take_length in Ei.
  set (cells := take i _ ++ _). assert (Hn : length cells = length (b_cells b)).
  { unfold cells. rewrite !app_length, take_length, !drop_length, take_length. lia. }
  split; cbn [within o_ranges o_mem sl_block sl_len].
  - destruct sl as [s|]; [|done]. destruct Hs as (b1 & Eb1 & Hl1). cbn [within o_mem].
    destruct (decide (sl_block cur = sl_block s)) as [E|E].
    + rewrite E, list_lookup_insert by (by rewrite <-E). eexists. split; [done|]. cbn [b_cells]. rewrite E in Eb. rewrite Eb in Eb1. injection Eb1 as <-. lia.
    + rewrite list_lookup_insert_ne by done. eauto.
  - rewrite list_lookup_insert by done. eexists. split; [done|]. cbn [b_cells]. lia.
Qed.
Lemma run_cells grow ps : forall o o' sl, (forall r, AddRange (Some r) ∈ ps -> P r) -> Forall has_range ps -> cells_ok o -> within o sl -> within o (o_ranges o) ->
  orch_run grow o ps = Some o' -> cells_ok o' /\ within o' sl /\ within o' (o_ranges o').
Proof.
  induction ps as [|p ps IH]; intros o o' sl Hp Hf Hc Hw Ho; cbn [orch_run]; [by intros [= <-]|].
  apply Forall_cons in Hf as [Hh Hf]. destruct p as [r|r]; cbn [orch_step mbind option_bind].
  - destruct Hh as [r' ->]. destruct (add_within grow (Some r') o sl Hw Ho) as [H1 H2]. apply IH; try done.
    + intros r0 Hr0. apply Hp. by right.
    + apply add_cells; [done|]. apply Hp. left.
  - destruct (remove_range r o) as [o1|] eqn:E; [|done]. cbn [mbind option_bind]. destruct (remove_within _ _ _ _ Hw Ho E) as [H1 H2]. apply IH; try done.
    + intros r0 Hr0. apply Hp. by right.
    + by eapply remove_cells.
Qed.
Lemma read_cells o sl : cells_ok o -> within o sl -> exists rs, slice_read (o_mem o) sl = Some <$> rs /\ Forall P rs /\
  length rs = match sl with None => 0%nat | Some s => sl_len s end.
Proof.
  intros Hc. destruct sl as [s|]; [|by exists []]. intros (b & Eb & Hl). cbn [slice_read]. rewrite Eb.
  assert (G : forall cs : list (option range), (forall c, c ∈ cs -> exists r, c = Some r /\ P r) -> exists rs, cs = Some <$> rs /\ Forall P rs /\ length rs = length cs).
  { induction cs as [|c cs IH]; intros H; [by exists []|]. destruct (H c ltac:(left)) as (r & -> & Hr).
    destruct IH as (rs & -> & H1 & H2); [intros x Hx; apply H; by right|]. exists (r :: rs). repeat split; [by constructor|cbn; lia]. }
  destruct (G (take (sl_len s) (b_cells b))) as (rs & Ecs & H1 & H2).
  { intros c (i & Hi & _)%elem_of_take. eapply Hc; eapply elem_of_list_lookup_2; [exact Eb|exact Hi]. }
  exists rs. split; [done|]. split; [done|]. rewrite H2, take_length. lia.
Qed.
End cells.

Lemma asked_app a b : asked (a ++ b) = asked a ++ asked b.
Proof. apply bind_app. Qed.
Lemma listed_drawn grow nils addrs tr s b s1 k tr2 s2 r :
  control_run grow nils addrs new_agent tr s -> Forall (fun ca => complete nils ca.1) (tr ++ tr2) ->
  control_call grow nils addrs (CallList b) s (Some (s1, Promised k)) ->
  control_run grow nils addrs s1 tr2 s2 ->
  control_call grow nils addrs (Encode k) s2 r ->
  exists b', r = Some (s2, Answered b') /\ (fits b' -> exists rs, unmarshal_ranges b' = Some rs /\
    length rs = length (ranges_spec [] (asked tr)) /\ Forall (added (tr ++ tr2)) rs).
Proof.
  intros Hr Hc Hl Hr2 He. apply run_orch in Hr. cbn [ag_orch new_agent] in Hr. apply Forall_app in Hc as [Hc Hc2].
  cbn [control_call] in Hl. destruct (unmarshal_nothing b); [|done]. injection Hl as -> ->.
  pose proof (run_listed _ _ _ _ _ _ Hr2) as [l El]. apply run_orch in Hr2. cbn [ag_orch ag_listed] in *.
  destruct He as (sl & Hsl & ->). rewrite El, <-app_assoc, lookup_app_r, Nat.sub_diag in Hsl by done. injection Hsl as <-.
  destruct (orch_run_inv grow (asked tr) new_orch [] (complete_ops _ _ Hc) eq_refl) as (o & E & Hi).
  rewrite Hr in E. injection E as <-.
  destruct (run_cells (added (tr ++ tr2)) grow (asked tr) new_orch (ag_orch s) None) as (C1 & _ & W1); try done.
  { intros x Hx. unfold added. rewrite asked_app. apply elem_of_app. by left. }
  { by apply (complete_ops nils). }
  { by intros ? ? ?%elem_of_nil. }
  destruct (run_cells (added (tr ++ tr2)) grow (asked tr2) (ag_orch s) (ag_orch s2) (o_ranges (ag_orch s))) as (C2 & W2 & _); try done.
  { intros x Hx. unfold added. rewrite asked_app. apply elem_of_app. by right. }
  { by apply (complete_ops nils). }
  destruct (read_cells _ _ _ C2 W2) as (rs & Ers & HP & Hlen). unfold list_ranges. rewrite Ers, marshal_some. eexists. split; [done|]. intros Hfit.
  exists rs. repeat split; [|..|done].
  - apply ranges_round; [|done..]. eapply Forall_impl; [exact HP|]. intros x Hx. by eapply asked_sized.
  - rewrite Hlen. unfold orch_inv in Hi. destruct (o_ranges (ag_orch s)) as [cur|]; [by destruct Hi as (? & _ & _ & ?)|by rewrite Hi].
Qed.
