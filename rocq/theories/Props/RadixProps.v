(** C94 for every number a client may write, followed by cases meeting its hypotheses.
    Vocabulary: Gateway/Spec.v, Gateway/SpecRadix.v.  Functions: Gateway/Model.v. *)
From Coq Require Import Ascii String.
From stdpp Require Import prelude gmap strings list.
From Verif.Base Require Import Envelope Url UrlProofs.
From Verif.Routing Require Import Model.
From Verif.Gateway Require Import Model Spec SpecRadix Radix.
From Verif.Props Require Import GatewayProps.
Open Scope string_scope.
Open Scope list_scope.
Open Scope Z_scope.

(** With the documented parameters only, the gateway asks the backend for exactly what the parameters of
    the request say when their numbers are read as literals: decimal, octal after a leading 0,
    hexadecimal after 0x, within 64 bits.  It asks for nothing when some number is none of these. *)
Theorem C94_literals : forall G id q r, carried id ->
  (forall k, is_Some (parse_query q !! k) -> k ∈ documented) ->
  serves G (append "/api/v1/read/" id) q (AskRead r) <-> read_takes (parse_query q) id r.
Proof. exact read_taken. Qed.
Print Assumptions C94_literals.
(** What is a literal, and what is not *)
Example C94_literal_cases :
  signed_literal "-0x1F" (-31) /\ signed_literal "+017" 15 /\ signed_literal "1024" 1024 /\ signed_literal "00" 0 /\
  (forall n, ~ signed_literal "08" n) /\ (forall n, ~ signed_literal "0x" n) /\ (forall n, ~ signed_literal "--1" n) /\
  (forall n, ~ signed_literal "1_000" n) /\ (forall n, ~ signed_literal "" n).
Proof.
  assert (P : forall s n, parse_int0 s = Some n -> signed_literal s n).
  { intros s n H. by apply parse_int0_iff in H as [H _]. }
  assert (Q : forall s, parse_int0 s = None -> forall n, - 2^63 <= n < 2^63 -> ~ signed_literal s n).
  { intros s H n Hn Hl. rewrite (proj2 (parse_int0_iff s n) (conj Hl Hn)) in H. discriminate. }
  repeat (split; [by apply P; vm_compute|]).
  assert (R : forall s b n, base_digits b 0 s = None -> ~ radix b s n).
  { intros s b n H Hr. apply radix_digits in Hr as [_ Hr]. congruence. }
  assert (L : forall s, (forall t, s <> String "+" t) -> (forall t, s <> String "-" t) -> (forall n, ~ literal s n) -> forall n, ~ signed_literal s n).
  { intros s Hp Hm Hl n [H|[(t & -> & _)|(t & -> & _)]]; [by eapply Hl|by eapply Hp|by eapply Hm]. }
  assert (U : forall s n, (forall m, parse_uint0 s <> Some m) -> n < 2^64 -> ~ literal s n).
  { intros s n H Hn Hl. eapply H. apply parse_uint0_iff. eauto. }
  split; [|split; [|split; [|split]]].
  - apply L; try done. intros n [[_ H]|[[E _]|[(s & [= <-] & H)|[(s & E & _)|(s & E & _)]]]]; try done.
    + by eapply H.
    + by eapply R; [|exact H].
  - apply L; try done. intros n [[_ H]|[[E _]|[(s & [= <-] & H)|[(s & E & H)|(s & E & H)]]]]; try done.
    + by eapply H.
    + by eapply R; [|exact H].
    + cbn in E. injection E as <-. by apply radix_digits in H as [? _].
  - intros n [H|[(t & E & _)|(t & E & H)]]; [by apply literal_signless in H as [_ H]|done|].
    cbn in E. injection E as <-. by apply literal_signless in H as [_ H].
  - apply L; try done. intros n [[H _]|[[E _]|[(s & E & H)|[(s & E & H)|(s & E & H)]]]]; try done. by eapply R; [|exact H].
  - apply L; try done. intros n [[H _]|[[E _]|[(s & E & H)|[(s & E & H)|(s & E & H)]]]]; try done. by apply radix_digits in H as [? _].
Qed.
(** A request whose limit is hexadecimal and one whose limit is no number *)
Example C94_literals_case : exists q q',
  parse_query q = {["limit" := ["0x10"]; "start_time" := ["-010"]]} /\
  serves (gw true true) "/api/v1/read/a/b" q (AskRead (mk_rr "a/b" (-8) 0 16 [] false "")) /\
  parse_query q' = {["limit" := ["08"]]} /\ (forall r, ~ serves (gw true true) "/api/v1/read/a/b" q' (AskRead r)).
Proof.
  exists "limit=0x10&start_time=-010", "limit=08".
  assert (E : parse_query "limit=0x10&start_time=-010" = {["limit" := ["0x10"]; "start_time" := ["-010"]]}).
  { apply (bool_decide_eq_true_1 (parse_query "limit=0x10&start_time=-010" = _)). vm_compute. reflexivity. }
  assert (E' : parse_query "limit=08" = {["limit" := ["08"]]}).
  { apply (bool_decide_eq_true_1 (parse_query "limit=08" = _)). vm_compute. reflexivity. }
  assert (D : forall (m : gmap string (list string)), bool_decide (map_Forall (fun k _ => k ∈ documented) m) = true ->
              forall k, is_Some (m !! k) -> k ∈ documented).
  { intros m H k [x Hx]. apply bool_decide_eq_true in H. exact (H k x Hx). }
  split; [exact E|]. split; [|split; [exact E'|]].
  - apply (C94_literals (gw true true) "a/b"); [exact (proj1 C94_carried)|rewrite E; apply D; vm_compute; reflexivity|].
    rewrite E. unfold read_takes, int_taken, types_given, bool_given, text_given. cbn.
    split; [done|]. split; [|split; [done|split; [|split; [done|split; [done|done]]]]].
    + exists "-010", []. split; [done|]. split; [|lia]. by apply (parse_int0_iff "-010" (-8)); vm_compute.
    + exists "0x10", []. split; [done|]. split; [|lia]. by apply (parse_int0_iff "0x10" 16); vm_compute.
  - intros r H. apply (C94_literals (gw true true) "a/b") in H; [|exact (proj1 C94_carried)|rewrite E'; apply D; vm_compute; reflexivity].
    destruct H as (_ & _ & _ & Hl & _). unfold int_taken in Hl. rewrite E', lookup_singleton in Hl.
    destruct Hl as (x & rest & [= <- _] & Hs & _). destruct C94_literal_cases as (_ & _ & _ & _ & H & _). by eapply H.
Qed.
