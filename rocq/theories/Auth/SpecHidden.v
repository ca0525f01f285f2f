(** Vocabulary of C158: what those who may not see anything are answered. *)
From Coq Require Import Ascii String.
From stdpp Require Import prelude gmap strings list.
From Verif.Base Require Import Str Url.
From Verif.Promql Require Import Model Spec.
From Verif.Auth Require Import Model System Spec.
Open Scope string_scope.
Open Scope list_scope.
Open Scope Z_scope.

Section SpecHidden.
Context (L : lib).

(** The request is a query, with a token of some kind, that no PromQL parser understands or that asks for no source
    at all *)
Definition senseless (r : request) : Prop :=
  rq_path r ∈ ["/api/v1/query"; "/api/v1/query_range"] /\ rq_auth r <> "" /\
  forall e, promql_parse L (vget "query" (parse_query (rq_query r))) = Some e ->
    forall ms id, selector_of e ms -> ~ asks ms id.
(** The answer that follows from the request alone *)
Definition told_nothing (r : request) (o : outcome L) : Prop :=
  (senseless r /\ o = BadData) \/ (~ senseless r /\ o = Status 404).
(** Nothing in the history vouches for the token *)
Definition stranger (h : list (nat * act L)) (i : nat) (r : request) : Prop :=
  forall c, ~ vouched L h i (rq_auth r) c.
(** Goroutine i asked neither CAPI nor Log Cache for anything *)
Definition asked_nobody (h : list (nat * act L)) (i : nat) : Prop :=
  forall x, (i, x) ∈ h -> match x with AMeta _ | ACapi _ _ _ => False | _ => True end.
End SpecHidden.
