(** From a sender, through a cluster, to a client of the gateway. *)
From Coq Require Import Ascii String.
From stdpp Require Import prelude strings list gmap.
From Verif.Base Require Import GoInt Envelope.
From Verif.Store Require Import Model Spec ProofsBase.
From Verif.Json Require Import Text Spec SpecPb.
From Verif.Routing Require Import Model Spec.
From Verif.Gateway Require Import Model Spec.
From Verif.Whole Require Import Model Spec SpecFull Proofs ProofsFull.
From Verif.Http Require Import Model.
From Verif.Client Require Import WalkStore.
From Verif.Wire Require Import Format Model Spec FormatProofs Proofs Received Numbers Frame SpecFrame FrameProofs FrameLarge SpecPipeline PipelineProofs
  Cluster SpecCluster ClusterProofs ClusterOwner SpecPipelineCluster.
Open Scope Z_scope.

Lemma gathered_sent src tr es : gathered src tr es -> Forall sendable es -> sent_to src (messages tr) = of_source src es.
Proof.
  induction 1 as [|i lo batch b tr es Hb Ht _ IH|ev tr es Hn _ IH]; intros Hs; [done|..].
  - apply Forall_app in Hs as [Hs1 Hs2]. change (messages (BSend i b :: tr)) with (message_of (BSend i b) ++ messages tr).
    rewrite sent_to_app, of_source_app, IH by done. f_equal. cbn [message_of]. unfold said. rewrite decide_True by done.
    assert (E : unmarshal_send b = Some (mk_send lo (Some batch))).
    { eapply send_round; [|exact Hb|unfold fits; unfold takes, bytes in Ht; lia]. intros l e [= <-] He. apply sendable_sized. rewrite Forall_forall in Hs1. by apply Hs1. }
    rewrite E. unfold sent_to. cbn [mbind list_bind]. rewrite List.app_nil_r. done.
  - change (messages (ev :: tr)) with (message_of ev ++ messages tr). rewrite sent_to_app, Hn. by apply IH.
Qed.

Lemma asked_types source start opts : Forall known_types opts -> enum_types (rr_types (asked source start opts)).
Proof.
  intros Hk t n Ht. change (rr_types (asked source start opts)) with (all_types opts) in Ht. unfold all_types in Ht.
  apply elem_of_list_In, in_concat in Ht as (ts & H1 & H2). apply elem_of_list_In in H1, H2. apply elem_of_list_omap in H1 as (o & H1 & H3).
  destruct o as [| |ts'| |]; try done. injection H3 as ->. rewrite Forall_forall in Hk. specialize (Hk _ H1). cbn in Hk. rewrite Forall_forall in Hk. by apply Hk.
Qed.
Lemma asked_sized source start opts : int64 start -> Forall option_in64 opts -> Forall known_types opts -> sized_read (asked source start opts).
Proof.
  intros Hst Ho Hk.
  assert (Hin : forall (f : option_ -> option Z), (forall o x, option_in64 o -> f o = Some x -> int64 x) -> int64 (default 0 (last (omap f opts)))).
  { intros f Hf. destruct (last (omap f opts)) as [x|] eqn:E; [|cbn; unfold int64; lia]. cbn. apply last_Some in E as [l' E].
    assert (Hx : x ∈ omap f opts) by (rewrite E; set_solver). apply elem_of_list_omap in Hx as (o & H1 & H2). rewrite Forall_forall in Ho. eapply Hf; [by apply Ho|done]. }
  split; [done|]. split; [|split].
  - apply Hin. intros [] x H [= <-]. exact H.
  - apply Hin. intros [] x H [= <-]. exact H.
  - apply Forall_forall. intros t Ht'. destruct t; try done. exfalso. by eapply asked_types.
Qed.
Lemma asked_bytes source start opts : int64 start -> Forall option_in64 opts -> Forall known_types opts -> utf8 source -> utf8 (last_name opts) ->
  bytes source + bytes (last_name opts) + 10 * Z.of_nat (length (all_types opts)) + 140 <= 4194304 ->
  exists b, marshal_read (asked source start opts) = Some b /\ takes b /\ unmarshal_read b = Some (asked source start opts).
Proof.
  intros Hst Ho Hk U1 U2 Hsz. set (rq := asked source start opts).
  assert (E : exists b, marshal_read rq = Some b).
  { unfold marshal_read, marshal. change (rr_source rq) with source. change (rr_name rq) with (last_name opts). cbn [forallb].
    rewrite (proj2 (valid_iff source) U1), (proj2 (valid_iff (last_name opts)) U2). by eexists. }
  destruct E as [b E]. exists b. split; [done|]. pose proof (read_size _ _ E) as Hrs. change (rr_source rq) with source in Hrs. change (rr_name rq) with (last_name opts) in Hrs.
  change (rr_types rq) with (all_types opts) in Hrs. assert (Ht : takes b) by (unfold takes; lia). split; [done|].
  eapply read_round; [|exact E|unfold fits; unfold takes, bytes in Ht; lia]. by apply asked_sized.
Qed.

Section cluster.
Context (grow : nat -> nat) (nils : bool) (addrs : list string) (hash : string -> Z) (compile : string -> option (string -> bool)).
Notation bruns := (bruns grow nils addrs hash compile).
Notation from_cluster := (from_cluster grow nils addrs hash compile).

(** what the backend says *)
Lemma cluster_backend ms m pre c k i t0 es source start opts x : Forall (fun m => 1 <= m) ms -> ms !! k = Some m ->
  bruns (bstart ms) pre c -> settled hash k source pre c -> gathered source pre es -> Forall sendable es ->
  distinct_times (of_source source es) -> Z.of_nat (length (of_source source es)) <= m ->
  int64 start -> Forall option_in64 opts -> Forall known_types opts -> utf8 source -> utf8 (last_name opts) ->
  bytes source + bytes (last_name opts) + 10 * Z.of_nat (length (all_types opts)) + 140 <= 4194304 ->
  from_cluster ms pre k i t0 (asked source start opts) (Done x) ->
  exists now l q all, t0 < now /\ l ≡ₚ of_source source es /\ time_sorted l /\ resolved compile now (asked source start opts) q /\
    (forall e, wanted_type (q_types q) e <-> requested_type (all_types opts) e) /\
    Store.Spec.answers q (if q_desc q then reverse l else l) all /\ Forall sendable all /\
    x = take (Z.to_nat (q_limit q)) all.
Proof.
  intros Hms Hm Hr [S1 S2 S3 S4 S5] Hg Hs D Hlen Hst Ho Hk U1 U2 Hsz Hx.
  destruct (asked_bytes source start opts) as (b & Eb & Tb & Ub); try done.
  pose proof (gathered_sent _ _ _ Hg Hs) as Esent.
  remember (Done x) as out eqn:Eo. destruct Hx as [n b0 mid y batch c' E1 Hr' [H1 H2 H3 H4 H5 H6] Hy|]; [|done]. injection Eo as <-.
  rewrite Eb in E1. injection E1 as <-.
  destruct (bytes_all_at grow nils addrs hash compile ms pre n i b mid y [] c' c k m (asked source start opts)) as (now & q & l & all & B1 & B2 & B3 & B4 & B5 & B6 & B7); try done.
  - intros m' Hin. apply elem_of_app in Hin as [Hin|Hin]; [by eapply S2|by eapply H3].
  - intros d pri Hin. apply elem_of_app in Hin as [Hin|Hin]; [by eapply S3|by eapply H4].
  - change (rr_source (asked source start opts)) with source. by rewrite Esent.
  - change (rr_source (asked source start opts)) with source. by rewrite Esent.
  - by apply asked_types.
  - change (rr_source (asked source start opts)) with source in B4. rewrite Esent in B4. rewrite B7 in Hy. injection Hy as <-. exists now, l, q, all.
    split. { unfold messages in B1. apply elem_of_list_bind in B1 as (bev & B1 & B1'). destruct bev; cbn [message_of] in B1; try (by apply elem_of_nil in B1); try (by apply elem_of_list_singleton in B1).
      - destruct (said b0); [by apply elem_of_list_singleton in B1|by apply elem_of_nil in B1].
      - apply elem_of_list_singleton in B1. injection B1 as _ _ -> _. by eapply H6. }
    do 5 (split; [done|]). split; [|done].
    eapply answers_sendable; [exact B6|]. assert (Hsl : Forall sendable l).
    { rewrite B4. apply Forall_forall. intros e He. apply elem_of_list_filter in He as [_ He]. rewrite Forall_forall in Hs. by apply Hs. }
    destruct (q_desc q); [|done]. by rewrite reverse_Permutation.
Qed.

Lemma message_bev ev mid : ev ∈ messages mid -> exists bev, bev ∈ mid /\ ev ∈ message_of bev.
Proof. unfold messages. intros H. apply elem_of_list_bind in H as (bev & H1 & H2). by exists bev. Qed.
Lemma bev_message ev bev mid : bev ∈ mid -> ev ∈ message_of bev -> ev ∈ messages mid.
Proof. intros H1 H2. unfold messages. apply elem_of_list_bind. by exists bev. Qed.
Lemma restart_bev k m tr : VRestart k m ∈ messages tr -> BRestart k m ∈ tr.
Proof.
  intros H. apply message_bev in H as (bev & H1 & H2). destruct bev; cbn [message_of] in H2; try (by apply elem_of_nil in H2); try (by apply elem_of_list_singleton in H2).
  - destruct (said b); [by apply elem_of_list_singleton in H2|by apply elem_of_nil in H2].
  - apply elem_of_list_singleton in H2. by injection H2 as -> ->.
Qed.
Lemma prune_bev k d pri tr : VPrune k d pri ∈ messages tr -> BPrune k d pri ∈ tr.
Proof.
  intros H. apply message_bev in H as (bev & H1 & H2). destruct bev; cbn [message_of] in H2; try (by apply elem_of_nil in H2); try (by apply elem_of_list_singleton in H2).
  - destruct (said b); [by apply elem_of_list_singleton in H2|by apply elem_of_nil in H2].
  - apply elem_of_list_singleton in H2. by injection H2 as -> -> ->.
Qed.
Lemma cluster_reaches ms m pre c k i t0 es source start opts : Forall (fun m => 1 <= m) ms -> ms !! k = Some m -> (i < length ms)%nat ->
  bruns (bstart ms) pre c ->
  lookup (hash source) (table_of i (messages pre)) = [k] -> lookup (hash source) (table_of k (messages pre)) = [k] ->
  settled hash k source pre c -> gathered source pre es -> Forall sendable es ->
  distinct_times (of_source source es) -> Z.of_nat (length (of_source source es)) <= m ->
  int64 start -> Forall option_in64 opts -> Forall known_types opts -> utf8 source -> utf8 (last_name opts) ->
  bytes source + bytes (last_name opts) + 10 * Z.of_nat (length (all_types opts)) + 140 <= 4194304 ->
  acceptable compile (asked source start opts) ->
  forall now, t0 < now -> exists l q all, l ≡ₚ of_source source es /\ time_sorted l /\ resolved compile now (asked source start opts) q /\
    (forall e, wanted_type (q_types q) e <-> requested_type (all_types opts) e) /\
    Store.Spec.answers q (if q_desc q then reverse l else l) all /\
    (too_large (take (Z.to_nat (q_limit q)) all) \/
     from_cluster ms pre k i t0 (asked source start opts) (Done (take (Z.to_nat (q_limit q)) all))).
Proof.
  intros Hms Hm Hi Hr Hti Htk [S1 S2 S3 S4 S5] Hg Hs D Hlen Hst Ho Hk U1 U2 Hsz Hacc now Hnow.
  destruct (asked_bytes source start opts) as (b & Eb & Tb & Ub); try done.
  pose proof (gathered_sent _ _ _ Hg Hs) as Esent. set (rq := asked source start opts) in *. set (n := fresh (dom (b_calls c))).
  assert (Hn : b_calls c !! n = None) by (apply not_elem_of_dom, is_fresh).
  destruct (bytes_served grow nils addrs hash compile ms pre c n i k rq b now) as (x & y & [c0 HR] & Ey & Hy); try done.
  { apply lookup_lt_Some in Hm. done. }
  { by apply asked_sized. }
  { by apply asked_types. }
  pose proof (bytes_refine _ _ _ _ _ _ _ _ Hms Hr) as HR0.
  destruct (held_all hash compile ms (messages pre) k m rq now x c0 (b_cluster c)) as (q & l & all & H1 & H2 & H3 & H4 & H5 & ->); try done.
  { intros m' H%restart_bev. by eapply S2. }
  { intros d pri H%prune_bev. by eapply S3. }
  { change (rr_source rq) with source. by rewrite Esent. }
  { change (rr_source rq) with source. by rewrite Esent. }
  { by apply asked_types. }
  change (rr_source rq) with source in H3. rewrite Esent in H3. exists l, q, all. do 5 (split; [done|]).
  destruct (decide (takes y)) as [Ty|Ty]; [|left; intros y' Ey'; rewrite Ey in Ey'; by injection Ey' as <-].
  right. destruct (Hy Ty) as (mid & c' & Em & Hno & Hr'). set (x := take _ _) in *.
  assert (Ux : unmarshal_read_response y = Some (Some x)).
  { destruct (bytes_owner grow nils addrs hash compile ms pre n i b mid y [] c' k rq) as (now' & es' & B1 & B2); try done.
    - intros j [-> | ->]; (split; [done|]); (split; [intros b0 t0' Hin|intros m' Hin]); eapply bev_message in Hin; try (by cbn [message_of]; left); rewrite Em in Hin; by apply elem_of_list_singleton in Hin.
    - rewrite Em in B1. apply elem_of_list_singleton in B1. by injection B1 as <- <-. }
  change x with (default [] (Some x)). eapply cluster_gives; [exact Eb|exact Hr'| |exact Ux].
  split; try done.
  - intros j [-> | ->]; (split; [done|]); (split; [intros b0 t0' Hin|intros m' Hin]); eapply bev_message in Hin; try (by cbn [message_of]; left); rewrite Em in Hin; by apply elem_of_list_singleton in Hin.
  - intros m' Hin. eapply bev_message in Hin; [|by cbn [message_of]; left]. rewrite Em in Hin. by apply elem_of_list_singleton in Hin.
  - intros d pri Hin. eapply bev_message in Hin; [|by cbn [message_of]; left]. rewrite Em in Hin. by apply elem_of_list_singleton in Hin.
  - by rewrite Em.
  - intros n' k' rq' now' a Hin. eapply bev_message in Hin; [|by cbn [message_of]; left]. rewrite Em in Hin. apply elem_of_list_singleton in Hin. by injection Hin as _ _ -> _.
Qed.
End cluster.
