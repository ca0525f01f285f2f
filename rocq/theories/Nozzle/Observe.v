(** What is observed of a run of the nozzle or of the batching client: the
    vocabulary of the theorems in Props/NozzleProps.v. *)
From stdpp Require Import prelude.
From Coq Require Import NArith.
From Verif.Nozzle Require Import Spec Model.
Open Scope nat_scope.

Section Observe.
Context {E : Type}.
Implicit Types (s : noz E) (ls : list (nlabel E)).

(** The envelopes the firehose delivered. *)
Fixpoint received (ls : list (nlabel E)) : list E :=
  match ls with
  | [] => []
  | NRecv e :: ls => e :: received ls
  | _ :: ls => received ls
  end.
(** The batches workers are sending. *)
Definition in_flight s : list (list E) := omap id (z_workers s).
(** The batches Log Cache acknowledged, and those it did not. *)
Definition acked s : list (list E) := omap (fun p : list E * bool => if p.2 then Some p.1 else None) (z_sent s).
Definition failed s : list (list E) := omap (fun p : list E * bool => if p.2 then None else Some p.1) (z_sent s).

(** The channel has room in every state the run goes through. *)
Definition roomy (c : ncfg) (k : nat) ls : Prop :=
  forall l1 l2 s1, ls = l1 ++ l2 -> nrun c (noz_new k) l1 = Some s1 ->
    length (z_ch s1) < n_chan c.

(** Nothing is left to do: the ring buffer is empty, no envelope waits for a
    batch, the channel is empty and every worker waits. *)
Definition at_rest (c : ncfg) s : Prop :=
  (diode_try (n_ring c) (z_ring s)).1.2 = None /\ z_envs s = [] /\ z_ch s = [] /\
  Forall (fun w => w = None) (z_workers s).

(** The envelopes the callers of Send handed over. *)
Fixpoint accepted (ls : list (blabel E)) : list E :=
  match ls with
  | [] => []
  | BSend es :: ls => es ++ accepted ls
  | BLoop _ _ :: ls => accepted ls
  end.
End Observe.
