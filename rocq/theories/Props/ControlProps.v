(** C180: the orchestration service of a node on bytes. *)
From Coq Require Import Ascii String.
From stdpp Require Import prelude strings list gmap.
From Verif.Base Require Import Envelope.
From Verif.Routing Require Import Model Spec.
From Verif.Scheduler Require Import Model.
From Verif.Wire Require Import Format Model Spec Control SpecControl ControlProofs ControlMore.
Local Open Scope string_scope.
Local Open Scope list_scope.
Local Open Scope Z_scope.

(** Bytes that are no request are refused and change nothing. *)
Theorem C180_garbage : forall grow nils addrs b s r,
  (unmarshal_range b = None -> control_call grow nils addrs (CallAdd b) s r \/ control_call grow nils addrs (CallRemove b) s r -> r = Some (s, Refused)) /\
  (unmarshal_nothing b = None -> control_call grow nils addrs (CallList b) s r -> r = Some (s, Refused)) /\
  (unmarshal_assignment nils b = None -> control_call grow nils addrs (CallSet b) s r -> r = Some (s, Refused)).
Proof. intros grow nils addrs b s r. cbn [control_call]. repeat split; [intros -> [H|H]; done|by intros ->..]. Qed.
Print Assumptions C180_garbage.

(** General form: a node goes on serving whatever requests it is sent.  False: an AddRange request of no bytes at all is accepted; from
    then on every ListRanges fails, and the first RemoveRange ends the process. *)
Theorem C180_nothing_refuted : forall grow nils addrs,
  (exists tr s, control_run grow nils addrs new_agent ((CallAdd "", Done) :: tr) s /\ tr = [(CallList "", Promised 0); (Encode 0, Refused)]) /\
  (forall tr s, control_run grow nils addrs new_agent ((CallAdd "", Done) :: tr) s ->
     (forall c b, (c, Answered b) ∉ tr) /\ (forall b a x, (CallRemove b, a) ∈ tr -> unmarshal_range b <> Some x)) /\
  (forall s b x, control_run grow nils addrs new_agent [(CallAdd "", Done)] s -> unmarshal_range b = Some x -> control_call grow nils addrs (CallRemove b) s None).
Proof.
  intros grow nils addrs. split; [|split].
  - eexists _, _. split; [|done]. repeat econstructor.
  - intros tr s H. pose proof (add_nothing _ _ _ _ _ H) as G. split.
    + intros c b Hin. by destruct (G _ _ Hin) as [Hn _]; eapply Hn.
    + intros b a x Hin. destruct (G _ _ Hin) as [_ Hn]. by eapply Hn.
  - intros s b x H E. inversion H as [|? ? ? s1 ? ? Hc Hr]; subst. cbn [control_call] in Hc. injection Hc as ->. inversion Hr; subst.
    cbn [control_call]. by rewrite E.
Qed.
Print Assumptions C180_nothing_refuted.
(** With a protobuf library that leaves the value of a map entry nil, so does a table that names an address and nothing else. *)
Definition lone_key : string := String (byte 10) (String (byte 3) (String (byte 10) (String (byte 1) "a"))).
Theorem C180_nil_refuted : forall grow addrs s, unmarshal_assignment true lone_key = Some {["a" := None]} /\
  control_call grow true addrs (CallSet lone_key) s None /\
  unmarshal_assignment false lone_key = Some {["a" := Some []]}.
Proof. intros grow addrs s. split; [by vm_compute|]. split; [|by vm_compute]. apply down_iff. right. exists lone_key, {["a" := None]}, "a". by vm_compute. Qed.
Print Assumptions C180_nil_refuted.
(** Exactly when a request ends the process: a removal without a range while there are ranges, a removal that meets a range that is not
    there before the one it is looking for, and a table with an entry that has no value. *)
Theorem C180_down : forall grow nils addrs c s, control_call grow nils addrs c s None <->
  (exists b x, c = CallRemove b /\ unmarshal_range b = Some x /\
     let l := slice_read (o_mem (ag_orch s)) (list_ranges (ag_orch s)) in
     (x = None /\ l <> []) \/ exists l1 l2, l = l1 ++ None :: l2 /\ x ∉ l1) \/
  (exists b m a, c = CallSet b /\ unmarshal_assignment nils b = Some m /\ m !! a = Some None).
Proof. exact down_iff. Qed.
Print Assumptions C180_down.
(** So a node whose callers say which range they mean, and which ranges an address has, stays up. *)
Theorem C180_up_partial : forall grow nils addrs tr s c r, control_run grow nils addrs new_agent tr s ->
  Forall (fun ca => complete nils ca.1) tr -> complete nils c -> control_call grow nils addrs c s r -> is_Some r.
Proof. exact up. Qed.
Print Assumptions C180_up_partial.

(** What ListRanges answers, with other calls before, after and in between, as long as nothing is removed between the call and its answer:
    the ranges added and not removed, oldest first. *)
Theorem C180_listed_partial : forall grow nils addrs tr s b s1 k tr2 s2 r,
  control_run grow nils addrs new_agent tr s -> Forall (fun ca => complete nils ca.1) tr ->
  control_call grow nils addrs (CallList b) s (Some (s1, Promised k)) ->
  control_run grow nils addrs s1 tr2 s2 -> Forall (fun ca => ~ removes ca.1) tr2 ->
  control_call grow nils addrs (Encode k) s2 r ->
  exists b', r = Some (s2, Answered b') /\ (fits b' -> unmarshal_ranges b' = Some (ranges_spec [] (asked tr))).
Proof. exact listed_now. Qed.
Print Assumptions C180_listed_partial.
(** With a removal in between the answer may be a list that the node never had ... *)
Definition wire_of (r : range) : string := default "" (marshal_range (Some r)).
Lemma add_call grow nils addrs b x s : unmarshal_range b = Some x ->
  control_call grow nils addrs (CallAdd b) s (Some (mk_agent (add_range grow x (ag_orch s)) (ag_table s) (ag_listed s), Done)).
Proof. intros E. cbn [control_call]. by rewrite E. Qed.
Lemma remove_call grow nils addrs b x s o : unmarshal_range b = Some x -> remove_range x (ag_orch s) = Some o ->
  control_call grow nils addrs (CallRemove b) s (Some (mk_agent o (ag_table s) (ag_listed s), Done)).
Proof. intros E Eo. cbn [control_call]. by rewrite E, Eo. Qed.
Lemma encode_call grow nils addrs k s sl l b : ag_listed s !! k = Some sl -> slice_read (o_mem (ag_orch s)) sl = l -> marshal_listed l = Some b ->
  control_call grow nils addrs (Encode k) s (Some (s, Answered b)).
Proof. intros E <- Eb. cbn [control_call]. exists sl. by rewrite Eb. Qed.
Theorem C180_torn_refuted : exists grow tr s b,
  control_run grow true [] new_agent tr s /\ Forall (fun ca => complete true ca.1) tr /\
  tr = [(CallAdd (wire_of (mk_range 0 9)), Done); (CallAdd (wire_of (mk_range 10 19)), Done); (CallAdd (wire_of (mk_range 20 29)), Done);
        (CallList "", Promised 0); (CallRemove (wire_of (mk_range 0 9)), Done); (Encode 0, Answered b)] /\
  unmarshal_ranges b = Some [mk_range 10 19; mk_range 20 29; mk_range 20 29] /\
  forall n, unmarshal_ranges b <> Some (ranges_spec [] (asked (take n tr))).
Proof.
  assert (WA : unmarshal_range (wire_of (mk_range 0 9)) = Some (Some (mk_range 0 9))) by (by vm_compute).
  assert (WB : unmarshal_range (wire_of (mk_range 10 19)) = Some (Some (mk_range 10 19))) by (by vm_compute).
  assert (WC : unmarshal_range (wire_of (mk_range 20 29)) = Some (Some (mk_range 20 29))) by (by vm_compute).
  destruct (marshal_listed (Some <$> [mk_range 10 19; mk_range 20 29; mk_range 20 29])) as [b|] eqn:Eb; [|by vm_compute in Eb].
  assert (Ub : unmarshal_ranges b = Some [mk_range 10 19; mk_range 20 29; mk_range 20 29]) by (vm_compute in Eb; injection Eb as <-; by vm_compute).
  generalize dependent (wire_of (mk_range 0 9)). intros wa WA. generalize dependent (wire_of (mk_range 10 19)). intros wb WB.
  generalize dependent (wire_of (mk_range 20 29)). intros wc WC.
  exists (fun n => n). eexists _, _, b. split; [|split; [|split; [reflexivity|]]].
  - econstructor; [by apply add_call|]. econstructor; [by apply add_call|]. econstructor; [by apply add_call|].
    econstructor; [done|]. econstructor; [by eapply remove_call|].
    econstructor; [|constructor]. by eapply encode_call; [done| |exact Eb].
  - repeat constructor; cbn [fst complete]; rewrite ?WA, ?WB, ?WC; done.
  - split; [done|]. rewrite Ub. intros n.
    do 6 (destruct n as [|n]; [cbn; unfold asked; cbn; rewrite ?WA, ?WB, ?WC; cbn; done|]).
    cbn; unfold asked; cbn; rewrite ?WA, ?WB, ?WC; cbn; destruct n; done.
Qed.
Print Assumptions C180_torn_refuted.
(** ... but it always is an answer, of as many ranges as there were when the call was served, and of ranges that were added. *)
Theorem C180_drawn : forall grow nils addrs tr s b s1 k tr2 s2 r,
  control_run grow nils addrs new_agent tr s -> Forall (fun ca => complete nils ca.1) (tr ++ tr2) ->
  control_call grow nils addrs (CallList b) s (Some (s1, Promised k)) ->
  control_run grow nils addrs s1 tr2 s2 ->
  control_call grow nils addrs (Encode k) s2 r ->
  exists b', r = Some (s2, Answered b') /\ (fits b' -> exists rs, unmarshal_ranges b' = Some rs /\
    length rs = length (ranges_spec [] (asked tr)) /\ Forall (added (tr ++ tr2)) rs).
Proof. exact listed_drawn. Qed.
Print Assumptions C180_drawn.

(** SetRanges decides the node's routes, whatever they were: a hash goes to the nodes whose address has a range that covers it, and to node 0
    for an address that is not configured. *)
Theorem C180_routes : forall grow nils addrs b m s r, NoDup addrs -> complete nils (CallSet b) -> unmarshal_assignment nils b = Some m ->
  control_call grow nils addrs (CallSet b) s r ->
  exists t, r = Some (mk_agent (ag_orch s) t (ag_listed s), Done) /\
    forall h i, i ∈ Routing.Model.lookup h t <->
      exists a rs x, m !! a = Some (Some rs) /\ x ∈ rs /\ covers x h /\ (addrs !! i = Some a \/ i = 0%nat /\ a ∉ addrs).
Proof. exact set_routes. Qed.
Print Assumptions C180_routes.

(** The scheduler's requests, as bytes, have at the node the effect that C116 to C121 assume of them. *)
Theorem C180_scheduler : forall grow nils addrs tr s q c r,
  control_run grow nils addrs new_agent tr s -> Forall (fun ca => complete nils ca.1) tr ->
  sized_request q -> request_bytes q = Some c -> fits (call_bytes c) ->
  control_call grow nils addrs c s r ->
  exists s' a n n', r = Some (s', a) /\ a <> Refused /\ seen s = (Some <$> sn_ranges n, sn_table n) /\ serves addrs n q n' /\
    seen s' = (Some <$> sn_ranges n', sn_table n').
Proof. exact serves_bytes. Qed.
Print Assumptions C180_scheduler.
(** A table of the scheduler that reaches the nodes of a cluster. *)
(** A table of the scheduler for two nodes. *)
Example C180_case :
  let m := {["a" := [mk_range 0 9]; "b" := [mk_range 10 19; mk_range 20 29]]} : gmap string (list range) in
  exists c r, request_bytes (RqSet m) = Some c /\ fits (call_bytes c) /\ sized_request (RqSet m) /\ complete true c /\
    control_call (fun n => n) true ["a"; "b"] c new_agent (Some r) /\ r.2 = Done /\ Routing.Model.lookup 15 (ag_table r.1) = [1%nat].
Proof.
  intros m. destruct (request_bytes (RqSet m)) as [c|] eqn:E; [|by vm_compute in E].
  assert (Hz : sized_request (RqSet m)).
  { intros k rs. unfold m. rewrite lookup_insert_Some, lookup_singleton_Some. intros [[_ <-]|[_ [_ <-]]]; by repeat constructor. }
  assert (Hf : fits (call_bytes c)) by (vm_compute in E; injection E as <-; by vm_compute).
  cbn [request_bytes] in E. destruct (marshal_table m) as [b|] eqn:Eb; [|done]. injection E as <-. cbn [call_bytes] in Hf.
  pose proof (assignment_round true m b Hz Eb Hf) as Ea. destruct (map_present m) as (kvs & Ek & Em).
  eexists _, (mk_agent new_orch _ [], Done). split; [done|]. split; [done|]. split; [done|]. split; [|split; [|split; [done|]]].
  - intros m' a. rewrite Ea. intros [= <-]. rewrite lookup_fmap. by destruct (m !! a).
  - cbn [control_call]. rewrite Ea, Ek, Em. eexists. split; [apply ProofsTable.set_ranges_exists|done].
  - by vm_compute.
Qed.
