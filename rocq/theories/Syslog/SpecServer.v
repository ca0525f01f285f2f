(** Vocabulary for the properties of the running syslog server. *)
From Coq Require Import NArith.
From stdpp Require Import prelude strings list.
From Verif.Base Require Import Envelope.
From Verif.Nozzle Require Import Spec Model.
From Verif.Syslog Require Import Model Spec Server.
Open Scope Z_scope.

(** The envelopes made from the messages received, in the order of the messages *)
Definition received (tr : list event) : list envelope :=
  omap (fun ev => match ev with EResult _ _ (Converted e) => Some e | _ => None end) tr.
(** How many results of the parser were errors or unusable *)
Definition useless (tr : list event) : nat :=
  length (omap (fun ev => match ev with EResult _ _ Invalid | EEnd _ _ true => Some () | _ => None end) tr).
(** The envelopes in the requests made to Log Cache, in order *)
Definition requested (s : server) : list envelope := concat (map pr_envs (b_reqs (s_client s))).
(** The envelopes of messages which are not yet counted *)
Definition entering (s : server) : list envelope :=
  omap (fun c => match c with Entering e | HasIndex e _ | Stepped e _ => Some e | _ => None end) (s_conns s).

(** The time after the events *)
Definition clock (t0 : Z) (tr : list event) : Z :=
  default t0 (last (omap (fun ev => match ev with EClock t => Some t | _ => None end) tr)).
(** The number of connections accepted *)
Definition accepts (tr : list event) : nat :=
  length (omap (fun ev => match ev with EAccept => Some () | _ => None end) tr).
(** [ev], after [p], begins connection [c] or completes a message on it. *)
Definition completes (c : nat) (p : list event) (ev : event) : Prop :=
  (ev = EAccept /\ accepts p = c) \/ (exists r, ev = EResult c r Invalid) \/ ev = EStore c.
