(** Model of internal/scheduler/scheduler.go (Start 116-160, setRemoteTables 162-174,
    convertWorkerState 176-191, comm 198-276) together with the nodes it talks to
    (internal/routing/orchestrator.go, routing_table.go) and the leader election of
    cmd/scheduler/main.go:38-48.  Any number of schedulers run at the same time.

    The orchestrator library (go-orchestrator, not in the repository) is left open: while a scheduler
    runs, it may issue any List, Add or Remove at any moment, several at a time, and may report
    anything as LastActual.  Simplifications: an RPC takes effect in one step at the node; the list of
    ranges of a node is a plain list (C39 relates it to the slices of the code); time and the 5 s
    timeouts only show as failed calls. *)
From stdpp Require Import prelude gmap strings list.
From Verif.Base Require Import GoInt Envelope.
From Verif.Routing Require Import Model Spec.
Open Scope Z_scope.

(** A node as the scheduler sees it: orchestrator.go:11-16 ranges, routing_table.go:12-19 table *)
Record snode := mk_sn { sn_ranges : list range; sn_table : list rinfo }.
(** log_cache.go:182-183: a node that has just started *)
Definition fresh_node : snode := mk_sn [] [].

(** scheduler.go:205, 229, 254: what the orchestrator library may ask of comm *)
Inductive op := OpList (w : string) | OpAdd (w : string) (r : range) | OpRemove (w : string) (r : range).
Definition op_worker (o : op) : string := match o with OpList w | OpAdd w _ | OpRemove w _ => w end.
(** The requests a node serves *)
Inductive request := RqList | RqAdd (r : range) | RqRemove (r : range) | RqSet (m : gmap string (list range)).
Definition op_request (o : op) : request :=
  match o with OpList _ => RqList | OpAdd _ r => RqAdd r | OpRemove _ r => RqRemove r end.

(** What a node does with a request; [addrs]: the node addresses it was configured with
    (orchestrator.go:32-70, routing_table.go:77-97) *)
Definition serves (addrs : list string) (n : snode) (q : request) (n' : snode) : Prop :=
  match q with
  | RqList => n' = n
  | RqAdd r => n' = mk_sn (sn_ranges n ++ [r]) (sn_table n)
  | RqRemove r => n' = mk_sn (remove_first r (sn_ranges n)) (sn_table n)
  | RqSet m => ∃ t, set_ranges addrs (sn_table n) m t ∧ n' = mk_sn (sn_ranges n) t
  end.

(** How a call ends for the scheduler; a call that fails may have been served nevertheless *)
Inductive outcome := Arrived | FailedBefore | FailedAfter.
Definition calls (addrs : list string) (nodes : gmap string snode) (w : string) (q : request) (oc : outcome)
    (nodes' : gmap string snode) : Prop :=
  match oc with
  | FailedBefore => nodes' = nodes
  | _ => ∃ n n', nodes !! w = Some n ∧ serves addrs n q n' ∧ nodes' = <[w := n']> nodes
  end.

(** A call of comm in progress: 230 / 255 isLeader still to be asked; 234-243 / 259-268 (or 206-216 of
    List, which does not ask) still to be made; over *)
Inductive comm := Asking (o : op) | Ready (o : op) | Over.
(** scheduler.go:205-226 List goes ahead; 229-232, 254-257 Add and Remove ask first *)
Definition issue (o : op) : comm := match o with OpList _ => Ready o | _ => Asking o end.

(** A scheduler: the calls its orchestrator library has issued, and the clients that setRemoteTables
    has still to reach with which request (162-174) *)
Record sched := mk_sc { sc_calls : list comm; sc_pub : option (list string * gmap string (list range)) }.
Definition idle_sched : sched := mk_sc [] None.
(** scheduler.go:167-173: the loop over the clients is over when none is left *)
Definition pending (todo : list string) (m : gmap string (list range)) : option (list string * gmap string (list range)) :=
  match todo with [] => None | _ => Some (todo, m) end.

(** The system; [sy_leader]: whom the election endpoint confirms now *)
Record sys := mk_sys { sy_nodes : gmap string snode; sy_scheds : list sched; sy_leader : option nat }.

Inductive label :=
| LElect (l : option nat)                                   (* the election changes its mind *)
| LRestart (a : string)                                     (* a node crashes and starts again *)
| LIssue (i : nat) (o : op)                                 (* scheduler i's library issues a call, 149, 153 *)
| LAsk (i j : nat) (b : bool)                               (* its call j asks isLeader: 230, 255 *)
| LCall (i j : nat) (o : op) (rep : list range) (oc : outcome)  (* its call j is made; rep: what a List is told *)
| LDecide (i : nat) (ws : list (string * list range)) (b : bool) (* 155-156: isLeader, and what LastActual says *)
| LPublish (i : nat) (a : string) (m : gmap string (list range)) (oc : outcome). (* 167-173, one client *)

(** One event.  [clients]: the addresses the schedulers were configured with (scheduler.go:52-58, the
    same for all), [addrs]: those the nodes were configured with.
    isLeader (main.go:38-48) answers true only to the leader; it may answer false to anyone. *)
Definition step (addrs clients : list string) (s : sys) (l : label) (s' : sys) : Prop :=
  match l with
  | LElect ld => s' = mk_sys (sy_nodes s) (sy_scheds s) ld
  | LRestart a => is_Some (sy_nodes s !! a) ∧ s' = mk_sys (<[a := fresh_node]> (sy_nodes s)) (sy_scheds s) (sy_leader s)
  | LIssue i o => ∃ c, sy_scheds s !! i = Some c ∧
      s' = mk_sys (sy_nodes s) (<[i := mk_sc (sc_calls c ++ [issue o]) (sc_pub c)]> (sy_scheds s)) (sy_leader s)
  | LAsk i j b => ∃ c o, sy_scheds s !! i = Some c ∧ sc_calls c !! j = Some (Asking o) ∧
      (b = true -> sy_leader s = Some i) ∧
      s' = mk_sys (sy_nodes s)
             (<[i := mk_sc (<[j := if b then Ready o else Over]> (sc_calls c)) (sc_pub c)]> (sy_scheds s)) (sy_leader s)
  | LCall i j o rep oc => ∃ c nodes', sy_scheds s !! i = Some c ∧ sc_calls c !! j = Some (Ready o) ∧
      calls addrs (sy_nodes s) (op_worker o) (op_request o) oc nodes' ∧
      (oc = Arrived -> ∃ n, sy_nodes s !! op_worker o = Some n ∧ rep = sn_ranges n) ∧
      s' = mk_sys nodes' (<[i := mk_sc (<[j := Over]> (sc_calls c)) (sc_pub c)]> (sy_scheds s)) (sy_leader s)
  | LDecide i ws b => ∃ c, sy_scheds s !! i = Some c ∧ sc_pub c = None ∧ (b = true -> sy_leader s = Some i) ∧
      s' = mk_sys (sy_nodes s)
             (<[i := mk_sc (sc_calls c) (if b then pending clients (convert_worker_state ws) else None)]> (sy_scheds s)) (sy_leader s)
  | LPublish i a m oc => ∃ c todo nodes', sy_scheds s !! i = Some c ∧ sc_pub c = Some (a :: todo, m) ∧
      calls addrs (sy_nodes s) a (RqSet m) oc nodes' ∧
      s' = mk_sys nodes'
             (<[i := mk_sc (sc_calls c) (pending todo m)]> (sy_scheds s)) (sy_leader s)
  end.

(** Executions *)
Inductive runs (addrs clients : list string) : sys -> list label -> sys -> Prop :=
| run_nil s : runs addrs clients s [] s
| run_cons s l s1 ls s' : step addrs clients s l s1 -> runs addrs clients s1 ls s' -> runs addrs clients s (l :: ls) s'.

(** Start: the nodes are in any state, [k] schedulers have done nothing yet, and nobody is the leader *)
Definition boot (nodes : gmap string snode) (k : nat) : sys := mk_sys nodes (replicate k idle_sched) None.
