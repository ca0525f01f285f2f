(** What the gateway and the authorisation proxy take from a request's query string (C150).
    Vocabulary: Base/SpecUrl.v, Gateway/Spec.v. *)
From Coq Require Import Ascii String.
From stdpp Require Import prelude strings gmap list.
From Verif.Base Require Import Str Url UrlProofs SpecUrl ProofsUrl.
From Verif.Gateway Require Import Model Spec.
From Verif.Props Require GatewayProps.
Open Scope string_scope.
Open Scope list_scope.
Open Scope Z_scope.

(** ** C150 *)
(** Whatever the bytes of a query string are, the parameters taken from it are those it spells: every
    parameter has exactly one list of values, it is the one of the string's well-formed pieces in their
    order, and a piece that is not well-formed changes nothing. *)
Theorem C150_parameters : forall q k,
  (exists xs, says q k xs /\ forall ys, says q k ys -> ys = xs) /\
  (forall xs, says q k xs <-> match parse_query q !! k with None => xs = [] | Some vs => xs = vs end).
Proof.
  intros q k. assert (H : forall xs, says q k xs <-> match parse_query q !! k with None => xs = [] | Some vs => xs = vs end).
  { intros xs. rewrite parse_says. destruct (parse_query q !! k) as [vs|] eqn:E.
    - pose proof (parse_query_nonempty q k vs E). destruct xs; naive_solver.
    - destruct xs; naive_solver. }
  split; [|done]. exists (default [] (parse_query q !! k)).
  split; [apply H; by destruct (parse_query q !! k)|]. intros ys Hy. apply H in Hy.
  by destruct (parse_query q !! k).
Qed.
Print Assumptions C150_parameters.

(** So the PromQL text and time which the backend of the gateway is asked for are those spelled in the
    query string, percent-escapes in either case. *)
Theorem C150_instant : forall G q text time, (forall k xs, says q k xs -> xs = [] \/ k = "query" \/ k = "time") ->
  serves G "/api/v1/query" q (AskInstant (Instant text time)) <->
  exists xs ys, says q "query" xs /\ says q "time" ys /\ text = hd "" xs /\ time = hd "" ys.
Proof.
  intros G q text time H. rewrite GatewayProps.C97_instant.
  2:{ intros k [xs Hk]. assert (Hs : says q k xs).
      { apply (proj2 (C150_parameters q k)). by rewrite Hk. }
      apply H in Hs. pose proof (parse_query_nonempty q k xs Hk). set_solver. }
  assert (Ht : forall k x, text_given (parse_query q) k x <-> exists xs, says q k xs /\ x = hd "" xs).
  { intros k x. unfold text_given. destruct (C150_parameters q k) as [_ Hk]. split.
    - intros Hx. exists (default [] (parse_query q !! k)). split; [apply Hk; by destruct (parse_query q !! k)|].
      destruct (parse_query q !! k) as [vs|]; [by destruct Hx as [rest ->]|done].
    - intros (xs & Hs & ->). apply Hk in Hs. destruct (parse_query q !! k) as [vs|] eqn:E; [|by subst].
      pose proof (parse_query_nonempty q k vs E) as Hne. subst xs. destruct vs as [|v vs]; [by destruct Hne|by exists vs]. }
  split.
  - intros (x & t & Hx & Hy & [= -> ->]). apply Ht in Hx as (xs & ? & ->). apply Ht in Hy as (ys & ? & ->). eauto 10.
  - intros (xs & ys & Hx & Hy & -> & ->). exists (hd "" xs), (hd "" ys). rewrite !Ht. eauto 10.
Qed.
Print Assumptions C150_instant.

(** A query string with escapes in either case, a plus sign, a repeated parameter, a semicolon, a malformed
    piece and one without an equals sign *)
Example C150_case : let q := "query=a%2a%2Ab+c;time=%zz&time=1&local&query=x" in
  says q "query" ["a**b c"; "x"] /\ says q "time" ["1"] /\ says q "local" [""] /\ says q "other" [].
Proof. cbv zeta. rewrite !parse_says. by vm_compute. Qed.

(** In the example the backend is asked for a**b at 1. *)
Example C150_asked : forall G, serves G "/api/v1/query" "time=%zz&query=a%2a%2Ab&time=1" (AskInstant (Instant "a**b" "1")).
Proof.
  intros G. apply C150_instant.
  - intros k xs H. apply parse_says in H.
    assert (Hq : parse_query "time=%zz&query=a%2a%2Ab&time=1" = {["query" := ["a**b"]; "time" := ["1"]]})
      by (apply (bool_decide_unpack _); by vm_compute).
    rewrite Hq in H. destruct (decide (k = "query")); [auto|]. destruct (decide (k = "time")); [auto|].
    rewrite lookup_insert_ne, lookup_singleton_ne in H by done. left. by destruct xs.
  - exists ["a**b"], ["1"]. rewrite !parse_says. by vm_compute.
Qed.
