(** Vocabulary of the properties about TLS (C141-C143). *)
From Coq Require Import ZArith.
From Coq Require Import Ascii String.
From stdpp Require Import prelude strings list.
From Verif.Tls Require Import Model.

(** The peer has the key of a certificate that x509 accepts for that name under the CA in the file. *)
Definition holds_certificate (verifies : option pem -> string -> cert -> Prop) (F : files) (caPath name : string) (p : peer) : Prop :=
  exists ca c, f_read F caPath = Some ca /\ c ∈ p_certs p /\ p_keys p (cert_key c) /\ verifies (Some ca) name c.
(** A peer without any certificate, ready for every version and suite *)
Definition stranger : peer := mk_peer [] (fun _ => False) (fun _ => True) (fun _ => True).
