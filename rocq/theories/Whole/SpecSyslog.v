(** Vocabulary for a cluster fed by the syslog server. *)
From stdpp Require Import prelude strings list.
From Verif.Base Require Import Envelope.
From Verif.Routing Require Import Model Spec.
From Verif.Nozzle Require Import Model.
From Verif.Syslog Require Server.
From Verif.Whole Require Import Model.

(** The calls of Send on the cluster: which node, and what was sent *)
Definition calls_made (tr : list event) : list (nat * send_request) :=
  omap (fun ev => match ev with VSend i r => Some (i, r) | _ => None end) tr.
(** The requests the syslog server made, to node i *)
Definition syslog_calls (i : nat) (s : Server.server) : list (nat * send_request) :=
  (fun r => (i, mk_send (pr_local r) (Some (pr_envs r)))) <$> b_reqs (Server.s_client s).
(** those calls that bring something of the source *)
Definition bringing (src : string) (l : list (nat * send_request)) : list (nat * send_request) :=
  filter (fun x => of_source src (get_batch x.2) ≠ []) l.
