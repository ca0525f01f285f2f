(** Vocabulary of the cache's memory: what a goroutine asks about. *)
From Coq Require Import Ascii String.
From stdpp Require Import prelude strings list.
From Verif.Base Require Import Str Url.
From Verif.Auth Require Import Model System.
Open Scope string_scope.

(** The goroutine decides whether token tok may read source id: a call of IsAuthorized, or a request to the
    read endpoint (an id the endpoint takes has no newline) *)
Definition asks_source (kd : kind) (id tok : string) : Prop :=
  kd = KAuthorize id tok \/
  exists r, kd = KServe r /\ rq_path r = append "/api/v1/read/" id /\ has_char newline id = false /\ rq_auth r = tok.
