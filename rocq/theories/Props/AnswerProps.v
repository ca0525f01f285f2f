(** The answers to queries between the node and the gateway: C166. *)
From Coq Require Import Ascii String.
From stdpp Require Import prelude strings list gmap.
From Verif.Query Require Model.
From Verif.Json Require Import Text Pb Spec SpecPb.
From Verif.Marshaler Require Import Model Spec.
From Verif.Wire Require Import Format Model Spec FormatProofs Proofs Received Result SpecResult ResultProofs Order SpecAnswer AnswerProofs.
From Verif.Props Require Import JsonProps.
Open Scope string_scope.
Open Scope list_scope.
Open Scope Z_scope.

(** ** C166 *)
(** Whatever the node answers, the gateway gets that answer: the same points, in order, with the same labels, and the page
    that it shows is the one that belongs to the node's answer. *)
Theorem C166_instant : forall L bits of_bits, float_bits L bits of_bits -> forall (q : Query.Model.result) s,
  marshal_result L bits (Some (message_of L of_bits q)) = Some s -> fits s ->
  exists r, unmarshal_result L of_bits s = Some (Some r) /\ equal_result L (message_of L of_bits q) r /\
    Marshaler.Model.marshal L (Some r) = Marshaler.Model.marshal L (Some (message_of L of_bits q)).
Proof.
  intros L bits of_bits HB q s Hm Hs. destruct (result_round L bits of_bits HB _ _ (message_whole L of_bits q) Hm Hs) as (r & H1 & H2).
  exists r. split; [done|]. split; [done|]. symmetry. by apply equal_page.
Qed.
Print Assumptions C166_instant.
(** A range query has an answer only if it is a matrix; it travels in a message of its own. *)
Theorem C166_range : forall L bits of_bits, float_bits L bits of_bits -> forall fmt v q,
  Query.Model.to_range_result fmt v = Query.Model.Answered q ->
  exists l, message_of L of_bits q = RMatrix (Some l) /\ forall s, marshal_range_result L bits (Some l) = Some s -> fits s ->
  exists r, unmarshal_range_result L of_bits s = Some (Some r) /\ equal_result L (message_of L of_bits q) r /\
    Marshaler.Model.marshal L (Some r) = Marshaler.Model.marshal L (Some (message_of L of_bits q)).
Proof.
  intros L bits of_bits HB fmt v q Hv. destruct v as [[t x|ss|ss|t x]|e]; try done. injection Hv as <-. cbn [message_of]. eexists. split; [done|].
  intros s Hm Hs. destruct (range_result_round L bits of_bits HB _ _ Hm Hs) as (l & H1 & H2).
  eexists. split; [exact H1|]. split; [by constructor|]. symmetry. apply equal_page. by constructor.
Qed.
Print Assumptions C166_range.
(** More generally, every answer without nil pointers arrives. *)
Theorem C166_any : forall L bits of_bits, float_bits L bits of_bits -> forall r s, whole L r ->
  marshal_result L bits (Some r) = Some s -> fits s ->
  exists r', unmarshal_result L of_bits s = Some (Some r') /\ equal_result L r r'.
Proof. exact result_round. Qed.
Print Assumptions C166_any.
(** An answer is lost if and only if a time, a label's name or a label's value is not UTF-8. *)
Theorem C166_refused : forall L bits r, whole L r ->
  (marshal_result L bits (Some r) = None <-> exists t, result_text L r t /\ ~ utf8 t) /\
  (forall l, r = RMatrix (Some l) -> marshal_range_result L bits (Some l) = None <-> exists t, result_text L r t /\ ~ utf8 t).
Proof. intros L bits r Hw. split; [by apply result_refused|]. intros l ->. by apply range_result_refused. Qed.
Print Assumptions C166_refused.
(** What arrives, in full: every sample and every series with its labels, its times and its values. *)
Theorem C166_shown : forall L bits of_bits, float_bits L bits of_bits -> forall (q : Query.Model.result) s,
  marshal_result L bits (Some (message_of L of_bits q)) = Some s -> fits s ->
  exists r, unmarshal_result L of_bits s = Some (Some r) /\ shows L of_bits q r.
Proof.
  intros L bits of_bits HB q s Hm Hs. destruct (result_round L bits of_bits HB _ _ (message_whole L of_bits q) Hm Hs) as (r & H1 & H2).
  exists r. split; [done|]. by apply shown.
Qed.
Print Assumptions C166_shown.
Theorem C166_shown_range : forall L bits of_bits, float_bits L bits of_bits -> forall ss l s,
  message_of L of_bits (Query.Model.RMatrix ss) = RMatrix (Some l) -> marshal_range_result L bits (Some l) = Some s -> fits s ->
  exists r, unmarshal_range_result L of_bits s = Some (Some r) /\ shows L of_bits (Query.Model.RMatrix ss) r.
Proof.
  intros L bits of_bits HB ss l s E Hm Hs. destruct (range_result_round L bits of_bits HB _ _ Hm Hs) as (l' & H1 & H2).
  eexists. split; [exact H1|]. apply shown. rewrite E. by constructor.
Qed.
Print Assumptions C166_shown_range.
(** The fields of a point, a sample and a series may come in any order, as long as every field gets the same values in the same
    order. *)
Theorem C166_order : forall L of_bits fs gs, legal fs -> legal gs -> alike id fs gs ->
  (forall p, merge (point_step L of_bits) p (write_fields fs) = merge (point_step L of_bits) p (write_fields gs)) /\
  (forall s, merge (sample_step L of_bits) s (write_fields fs) = merge (sample_step L of_bits) s (write_fields gs)) /\
  (forall s, merge (series_step L of_bits) s (write_fields fs) = merge (series_step L of_bits) s (write_fields gs)).
Proof.
  intros L of_bits fs gs H1 H2 Ha. repeat split; intros a; (eapply same_fields; [|done|done|exact Ha]); intros f g Hne.
  - by apply point_commute.
  - by apply sample_commute.
  - by apply series_commute.
Qed.
Print Assumptions C166_order.

(** The field numbers are those of api/v1/promql.proto. *)
Definition a_point (t : string) (n : Z) : wire := Bytes (write_fields [(1, Bytes t); (2, Fixed64 n)]).
Definition a_sample (k v t : string) (n : Z) : wire := Bytes (write_fields [(1, entry k (Bytes v)); (2, a_point t n)]).
Theorem C166_numbers : forall L of_bits k v t n, utf8 k -> utf8 v -> utf8 t -> uint64 n ->
  (forall s, s = write_fields [(1, a_point t n)] -> fits s -> unmarshal_result L of_bits s = Some (Some (RScalar (Some (Point t (of_bits n)))))) /\
  (forall s, s = write_fields [(2, Bytes (write_fields [(1, a_sample k v t n)]))] -> fits s ->
     unmarshal_result L of_bits s = Some (Some (RVector (Some [Some (Sample (Some {[k := v]}) (Some (Point t (of_bits n))))])))) /\
  (forall s, s = write_fields [(3, Bytes (write_fields [(1, a_sample k v t n)]))] -> fits s ->
     unmarshal_result L of_bits s = Some (Some (RMatrix (Some [Some (Series (Some {[k := v]}) [Some (Point t (of_bits n))])])))) /\
  (forall s, s = write_fields [(1, Bytes (write_fields [(1, a_sample k v t n)]))] -> fits s ->
     unmarshal_range_result L of_bits s = Some (Some (RMatrix (Some [Some (Series (Some {[k := v]}) [Some (Point t (of_bits n))])])))).
Proof.
  intros L of_bits k v t n Hk Hv Ht Hn.
  assert (Hone : forall j w, 1 <= j < 2^29 -> (exists x, w = Bytes x) -> Forall num_ok [(j, w)]) by (intros j w Hj [x ->]; repeat constructor; cbn; lia).
  split; [|split; [|split]]; intros s -> Hs.
  - unfold unmarshal_result. rewrite merge_write; [|apply Hone; [lia|by eexists]|exact Hs]. cbn [read_on result_step]. cbn [Z.eqb Pos.eqb].
    unfold a_point. cbn [get_msg]. rewrite number_point; [done|done|done|]. eapply small_in; [exact Hs|]. left.
  - assert (H1 : small [(1, a_sample k v t n)]) by (eapply small_in; [exact Hs|]; left).
    assert (H2 : small [(1, entry k (Bytes v)); (2, a_point t n)]) by (eapply small_in; [exact H1|]; left).
    unfold unmarshal_result. rewrite merge_write; [|apply Hone; [lia|by eexists]|exact Hs]. cbn [read_on result_step]. cbn [Z.eqb Pos.eqb].
    cbn [get_msg]. rewrite merge_write; [|apply Hone; [lia|by eexists]|exact H1]. cbn [read_on vector_step]. cbn [Z.eqb Pos.eqb].
    unfold a_sample. cbn [get_msg]. unfold a_point. destruct (number_sample L of_bits k v t n) as [-> _]; done.
  - assert (H1 : small [(1, a_sample k v t n)]) by (eapply small_in; [exact Hs|]; left).
    assert (H2 : small [(1, entry k (Bytes v)); (2, a_point t n)]) by (eapply small_in; [exact H1|]; left).
    unfold unmarshal_result. rewrite merge_write; [|apply Hone; [lia|by eexists]|exact Hs]. cbn [read_on result_step]. cbn [Z.eqb Pos.eqb].
    cbn [get_msg]. rewrite merge_write; [|apply Hone; [lia|by eexists]|exact H1]. cbn [read_on matrix_step]. cbn [Z.eqb Pos.eqb].
    unfold a_sample. cbn [get_msg]. unfold a_point. destruct (number_sample L of_bits k v t n) as [_ ->]; done.
  - assert (H1 : small [(1, a_sample k v t n)]) by (eapply small_in; [exact Hs|]; left).
    assert (H2 : small [(1, entry k (Bytes v)); (2, a_point t n)]) by (eapply small_in; [exact H1|]; left).
    unfold unmarshal_range_result. rewrite merge_write; [|apply Hone; [lia|by eexists]|exact Hs]. cbn [read_on range_result_step]. cbn [Z.eqb Pos.eqb].
    cbn [get_msg]. rewrite merge_write; [|apply Hone; [lia|by eexists]|exact H1]. cbn [read_on matrix_step]. cbn [Z.eqb Pos.eqb].
    unfold a_sample. cbn [get_msg]. unfold a_point. destruct (number_sample L of_bits k v t n) as [_ ->]; done.
Qed.
Print Assumptions C166_numbers.

(** A vector of two samples: a label, and none *)
Definition two_bits (b : flt two_lib) : Z := if b : bool then 4607182418800017408 else 0.
Definition two_of (n : Z) : flt two_lib := n =? 4607182418800017408.
Definition two_samples : Query.Model.result :=
  Query.Model.RVector [({["job" := "é"]}, Query.Model.mk_pp "1" 4607182418800017408); (∅, Query.Model.mk_pp "0" 0)].
Example C166_case : float_bits two_lib two_bits two_of /\
  (exists fmt v, Query.Model.to_instant_result fmt v = Query.Model.Answered two_samples) /\
  exists s, marshal_result two_lib two_bits (Some (message_of two_lib two_of two_samples)) = Some s /\ fits s.
Proof.
  split; [|split].
  - intros []; split; try reflexivity; unfold uint64, two_bits; lia.
  - exists (fun t => if t =? 1 then "1" else "0"), (inl (Query.Model.VVector [([("job", "é")], (1, 4607182418800017408)); ([], (0, 0))])). reflexivity.
  - eexists. split; [vm_compute; reflexivity|]. unfold fits. vm_compute. reflexivity.
Qed.
