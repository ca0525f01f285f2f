(** The Go client over gRPC: C167. *)
From Coq Require Import Ascii String.
From stdpp Require Import prelude strings list gmap.
From Verif.Base Require Import Envelope.
From Verif.Store Require Import Spec.
From Verif.Query Require Model.
From Verif.Routing Require Import Model.
From Verif.Json Require Import Text Pb Spec SpecPb.
From Verif.Marshaler Require Import Model Spec.
From Verif.Gateway Require Import Model Spec Route.
From Verif.Http Require Import Model Spec Proofs.
From Verif.Wire Require Import Format Model Spec FormatProofs Proofs Received Result SpecResult ResultProofs Client.
From Verif.Props Require Import JsonProps WireProps AnswerProps HttpProps.
Open Scope string_scope.
Open Scope list_scope.
Open Scope Z_scope.

(** ** C167 *)
(** A peer that answers a read with a message in which the batch is not set - the empty message, which is legal - crashes the
    program that called the client, whatever it read. *)
Theorem C167_crash_refuted : forall source start opts, is_Some (marshal_read (grpc_read source start opts)) ->
  exists peer : string -> option string, client_read peer source start opts = Crashed.
Proof. intros source start opts [b Hb]. exists (fun _ => Some ""). unfold client_read, unary. by rewrite Hb. Qed.
Print Assumptions C167_crash_refuted.
(** That is the only way: the calls end with a value or an error unless a read is answered without a batch. *)
Theorem C167_safe_partial : forall peer : string -> option string,
  (forall source start opts, client_read peer source start opts = Crashed <->
     exists b b', marshal_read (grpc_read source start opts) = Some b /\ peer b = Some b' /\ unmarshal_read_response b' = Some None) /\
  client_meta peer <> Crashed /\
  (forall D L of_bits query opts, client_instant D L of_bits peer query opts <> Crashed) /\
  (forall D L of_bits query opts, client_range D L of_bits peer query opts <> Crashed).
Proof.
  intros peer. split; [|split; [|split]].
  - intros source start opts. unfold client_read, unary. destruct (marshal_read _) as [b|] eqn:E; cbn; [|split; [done|by intros (? & ? & ? & _)]].
    destruct (peer b) as [b'|] eqn:Ep; cbn; [|split; [done|intros (x & y & [= <-] & Hp & _); congruence]].
    destruct (unmarshal_read_response b') as [[es|]|] eqn:Eu; cbn.
    + split; [done|]. intros (x & y & [= <-] & Hp & Hu). congruence.
    + split; [|done]. intros _. by exists b, b'.
    + split; [done|]. intros (x & y & [= <-] & Hp & Hu). congruence.
  - unfold client_meta. by destruct (unary _ _ _).
  - intros. unfold client_instant. by destruct (unary _ _ _).
  - intros. unfold client_range. by destruct (unary _ _ _).
Qed.
Print Assumptions C167_safe_partial.

(** With a node, a read returns what the node answers to the very request that the options describe, or an error if the node
    gives none.  Nodes answer with (projections of) envelopes they received; requests and answers fit in memory. *)
Lemma asked_sized source start opts : int64 start -> Forall option_in64 opts -> Forall known_types opts -> sized_read (asked source start opts).
Proof.
  intros Hs H64 Hk. unfold asked. split; [exact Hs|].
  assert (Hl : forall f : option_ -> option Z, (forall o n, o ∈ opts -> f o = Some n -> int64 n) -> int64 (default 0 (last (omap f opts)))).
  { intros f Hf. destruct (last (omap f opts)) as [n|] eqn:E; [|cbn; unfold int64; lia]. cbn.
    apply last_Some_elem_of, elem_of_list_omap in E as (o & Ho & Hn). by eapply Hf. }
  rewrite Forall_forall in H64, Hk. cbn [rr_start rr_end rr_limit rr_types]. split; [|split].
  - apply Hl. intros o n Ho. specialize (H64 o Ho). destruct o; try done. intros [= <-]. exact H64.
  - apply Hl. intros o n Ho. specialize (H64 o Ho). destruct o; try done. intros [= <-]. exact H64.
  - apply Forall_forall. intros t Ht. unfold all_types in Ht. rewrite elem_of_list_In in Ht. apply in_concat in Ht as (ts & Hts & Ht).
    apply elem_of_list_In, elem_of_list_omap in Hts as (o & Ho & E). specialize (Hk o Ho). destruct o; try done. injection E as <-.
    cbn in Hk. rewrite Forall_forall in Hk. apply elem_of_list_In in Ht. specialize (Hk t Ht). destruct t; try done. by destruct (Hk n).
Qed.
Theorem C167_read : forall h source start opts, int64 start -> Forall option_in64 opts -> Forall known_types opts ->
  (forall r es, h r = Some es -> exists nf, forall e', e' ∈ es -> exists e, received e /\ projects nf e e') ->
  (forall s, marshal_read (asked source start opts) = Some s -> fits s) ->
  (forall r es s, h r = Some es -> marshal_read_response (Some es) = Some s -> fits s) ->
  utf8 source -> utf8 (last_name opts) ->
  client_read (serve_read h) source start opts = match h (asked source start opts) with Some es => Got es | None => Failed end.
Proof.
  intros h source start opts Hs H64 Hk Hh Hf1 Hf2 Hu1 Hu2. unfold client_read, unary. rewrite grpc_asked by done.
  assert (E : exists b, marshal_read (asked source start opts) = Some b).
  { destruct (marshal_read _) as [b|] eqn:E; [by exists b|]. exfalso.
    apply (proj1 (proj1 (proj2 (proj2 C163_refused)) (asked source start opts)) E). by split. }
  destruct E as [b E]. rewrite E. cbn [mbind option_bind]. unfold serve_read.
  rewrite (C163_read _ _ (asked_sized _ _ _ Hs H64 Hk) E (Hf1 _ E)). cbn [mbind option_bind].
  destruct (h (asked source start opts)) as [es|] eqn:Eh; [|done]. cbn [mbind option_bind].
  destruct (Hh _ _ Eh) as [nf Hnf]. destruct (C165_serve es nf Hnf) as (s & Es & Hr). rewrite Es. cbn [mbind option_bind].
  by rewrite (Hr (Hf2 _ _ _ Eh Es)).
Qed.
Print Assumptions C167_read.
(** A source id or a name filter that is not UTF-8 never leaves the client: the read fails.  (Over HTTP the request is sent.) *)
Theorem C167_not_utf8 : forall peer source start opts, Forall option_in64 opts -> Forall known_types opts ->
  ~ (utf8 source /\ utf8 (last_name opts)) -> client_read peer source start opts = Failed.
Proof.
  intros peer source start opts H64 Hk Hn. unfold client_read, unary. rewrite grpc_asked by done.
  by rewrite (proj2 (proj1 (proj2 (proj2 C163_refused)) (asked source start opts)) Hn).
Qed.
Print Assumptions C167_not_utf8.
Theorem C167_meta : forall h, (forall r m, h r = Some m -> forall k i, m !! k = Some i -> sized_info i /\ utf8 k) ->
  (forall r m s, h r = Some m -> marshal_meta_response m = Some s -> fits s) ->
  client_meta (serve_meta h) = match h (MetaReq false) with Some m => Got m | None => Failed end.
Proof.
  intros h Hh Hf. unfold client_meta, unary. cbn [mbind option_bind].
  destruct (marshal_meta (MetaReq false)) as [b|] eqn:E; [|done]. cbn [mbind option_bind]. unfold serve_meta.
  assert (Eb : b = "") by (vm_compute in E; congruence). subst b. change (unmarshal_meta "") with (Some (MetaReq false)). cbn [mbind option_bind].
  destruct (h (MetaReq false)) as [m|] eqn:Eh; [|done]. cbn [mbind option_bind].
  destruct (marshal_meta_response m) as [s|] eqn:Es.
  - cbn [mbind option_bind]. rewrite (C163_meta_response m s); [done| |done|by eapply Hf]. intros k i Hi. by eapply Hh.
  - exfalso. apply (proj1 (proj1 (proj2 (proj2 (proj2 C163_refused))) m)) in Es as (k & [i Hi] & Hu). apply Hu. by eapply Hh.
Qed.
Print Assumptions C167_meta.
(** A query returns the node's answer to the request that the options describe: the same points with the same labels. *)
Theorem C167_instant : forall D L bits of_bits h query opts, float_bits L bits of_bits ->
  utf8 query -> utf8 (iq_time (asked_instant D query opts)) ->
  (forall s, marshal_instant (asked_instant D query opts) = Some s -> fits s) ->
  (forall q s, marshal_result L bits (Some (message_of L of_bits q)) = Some s -> fits s) ->
  match h (asked_instant D query opts) with
  | Some q =>
      (forall t, result_text L (message_of L of_bits q) t -> utf8 t) ->
      exists r, client_instant D L of_bits (serve_instant L bits of_bits h) query opts = Got (Some r) /\ equal_result L (message_of L of_bits q) r
  | None => client_instant D L of_bits (serve_instant L bits of_bits h) query opts = Failed
  end.
Proof.
  intros D L bits of_bits h query opts HB Hu1 Hu2 Hf1 Hf2. unfold client_instant, unary. rewrite grpc_instant_asked.
  assert (E : exists b, marshal_instant (asked_instant D query opts) = Some b).
  { eexists. apply marshal_some. intros t Ht. apply elem_of_cons in Ht as [->|Ht]; [exact Hu1|]. apply elem_of_list_singleton in Ht as ->. exact Hu2. }
  destruct E as [b E]. rewrite E. cbn [mbind option_bind]. unfold serve_instant.
  rewrite (proj1 C163_queries _ _ E (Hf1 _ E)). cbn [mbind option_bind].
  destruct (h (asked_instant D query opts)) as [q|] eqn:Eh; [|done]. intros Ht. cbn [mbind option_bind].
  destruct (marshal_result L bits (Some (message_of L of_bits q))) as [s|] eqn:Es.
  - cbn [mbind option_bind]. destruct (C166_instant L bits of_bits HB q s Es (Hf2 _ _ Es)) as (r & Hr & He & _). exists r. by rewrite Hr.
  - exfalso. apply (proj1 (C166_refused L bits _ (message_whole L of_bits q))) in Es as (t & H1 & H2). by apply H2, Ht.
Qed.
Print Assumptions C167_instant.
Theorem C167_range : forall D L bits of_bits h query opts, float_bits L bits of_bits ->
  utf8 query -> utf8 (rg_start (asked_range D query opts)) -> utf8 (rg_end (asked_range D query opts)) -> utf8 (rg_step (asked_range D query opts)) ->
  (forall s, marshal_range_query (asked_range D query opts) = Some s -> fits s) ->
  (forall l s, marshal_range_result L bits (Some l) = Some s -> fits s) ->
  match h (asked_range D query opts) with
  | Some (Query.Model.RMatrix ss) =>
      (forall t, result_text L (message_of L of_bits (Query.Model.RMatrix ss)) t -> utf8 t) ->
      exists r, client_range D L of_bits (serve_range L bits of_bits h) query opts = Got (Some r) /\
        equal_result L (message_of L of_bits (Query.Model.RMatrix ss)) r
  | _ => client_range D L of_bits (serve_range L bits of_bits h) query opts = Failed
  end.
Proof.
  intros D L bits of_bits h query opts HB Hu1 Hu2 Hu3 Hu4 Hf1 Hf2. unfold client_range, unary. rewrite grpc_range_asked.
  assert (E : exists b, marshal_range_query (asked_range D query opts) = Some b).
  { eexists. apply marshal_some. intros t Ht. repeat (apply elem_of_cons in Ht as [->|Ht]; [done|]). by apply elem_of_nil in Ht. }
  destruct E as [b E]. rewrite E. cbn [mbind option_bind]. unfold serve_range.
  rewrite (proj2 C163_queries _ _ E (Hf1 _ E)). cbn [mbind option_bind].
  destruct (h (asked_range D query opts)) as [[t v|ss|ss]|] eqn:Eh; [done|done| |done]. intros Ht. cbn [mbind option_bind message_of].
  set (l := (fun s : gmap string string * list Query.Model.ppoint => Some (Series (Some s.1) ((fun p => Some (point_of L of_bits p)) <$> s.2))) <$> ss).
  destruct (marshal_range_result L bits (Some l)) as [s|] eqn:Es.
  - cbn [mbind option_bind]. destruct (range_result_round L bits of_bits HB l s Es (Hf2 _ _ Es)) as (l' & H1 & H2). rewrite H1.
    eexists. split; [done|]. by constructor.
  - exfalso. apply (proj2 (C166_refused L bits _ (message_whole L of_bits (Query.Model.RMatrix ss))) l eq_refl) in Es as (t & H1 & H2). by apply H2, Ht.
Qed.
Print Assumptions C167_range.

(** A node that holds one counter, asked with an option, and a node that knows nothing. *)
Definition one_counter (r : read_request) : option (list envelope) := if bool_decide (rr_source r = "app") then Some [a_counter] else None.
Example C167_case : client_read (serve_read one_counter) "app" (-3) [WithLimit 7; WithEnvelopeTypes [T_COUNTER]; WithNameFilter "é"] = Got [a_counter] /\
  client_read (serve_read one_counter) "other" 0 [] = Failed /\ client_read (fun _ => Some "") "app" 0 [] = Crashed.
Proof. split; [|split]; vm_compute; reflexivity. Qed.
