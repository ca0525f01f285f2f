(** Vocabulary of C162: what a refresh of the token keys got from UAA. *)
From Coq Require Import Ascii String.
From stdpp Require Import prelude gmap strings list.
From Verif.Promql Require Import Model.
From Verif.Auth Require Import Model System.
Open Scope string_scope.
Open Scope list_scope.
Open Scope Z_scope.

Section SpecStartup.
Context (L : lib) (C : config).
(** Every key of the list is an RSA key *)
Definition usable (ks : list (string * string)) : Prop := forall kid pem, (kid, pem) ∈ ks -> pem <> "" /\ is_Some (rsa_key L pem).
(** UAA answered 200 with the list ks *)
Definition listed (l : list (act L)) (body : string) (ks : list (string * string)) : Prop :=
  AUaa (Some (Reply 200 body)) ∈ l /\ json_keys L body = Some ks.
(** UAA was not asked, because it was asked less than the interval before *)
Definition throttled (m : mem L) (l : list (act L)) : Prop :=
  (forall r, AUaa r ∉ l) /\ exists t, ANow t ∈ l /\ t < m_last m + cf_refresh C.
End SpecStartup.
