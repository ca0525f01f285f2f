(** Vocabulary of the scheduler properties: what can be read off a history of events. *)
From stdpp Require Import prelude gmap strings list.
From Verif.Base Require Import GoInt Envelope.
From Verif.Routing Require Import Model Spec.
From Verif.Scheduler Require Import Model.
Open Scope Z_scope.

(** The leader after a history: the last one elected. *)
Definition elected (ls : list label) : option nat :=
  foldl (fun ld l => match l with LElect x => x | _ => ld end) None ls.

(** The request changes what a node holds. *)
Definition changes (o : op) : Prop := match o with OpList _ => False | _ => True end.

(** Scheduler [i] comes to no further decision. *)
Definition no_decision (i : nat) (ls : list label) : Prop := ∀ ws b, LDecide i ws b ∉ ls.

(** The tables scheduler [i] sends out, in order. *)
Definition sent (i : nat) (ls : list label) : list (string * gmap string (list range)) :=
  omap (fun l => match l with LPublish i' a m _ => if decide (i' = i) then Some (a, m) else None | _ => None end) ls.

(** Nobody but scheduler [i] sends tables. *)
Definition sole_publisher (i : nat) (ls : list label) : Prop := ∀ i' a m oc, LPublish i' a m oc ∈ ls -> i' = i.

(** A node's answer when asked for the owners of a hash. *)
Definition node_lookup (s : sys) (a : string) (h : Z) : option (list nat) :=
  (fun n => Model.lookup h (sn_table n)) <$> (sy_nodes s !! a).

(** What [w] last answered when scheduler [i] asked it for its ranges. *)
Definition last_listing (i : nat) (w : string) (ls : list label) : option (list range) :=
  foldl (fun acc l => match l with
    | LCall i' _ (OpList w') rep Arrived => if decide (i' = i ∧ w' = w) then Some rep else acc
    | _ => acc end) None ls.

(** What a scheduler takes for the state of the cluster is what the nodes last answered. *)
Definition honest (i : nat) (ws : list (string * list range)) (ls : list label) : Prop :=
  ∀ w rs, (w, rs) ∈ ws <-> last_listing i w ls = Some rs.

(** The ranges a node was told to hold since it last started, and not told to give up: calls that failed
    may have reached it ([FailedAfter]) or not. *)
Definition told (a : string) (ls : list label) (r0 : list range) : list range :=
  foldl (fun rs l => match l with
    | LRestart b => if decide (b = a) then [] else rs
    | LCall _ _ (OpAdd w r) _ (Arrived | FailedAfter) => if decide (w = a) then rs ++ [r] else rs
    | LCall _ _ (OpRemove w r) _ (Arrived | FailedAfter) => if decide (w = a) then remove_first r rs else rs
    | _ => rs end) r0 ls.

(** Nothing went wrong in a history: no call failed, no node restarted. *)
Definition smooth (ls : list label) : Prop := ∀ l, l ∈ ls ->
  match l with
  | LRestart _ => False
  | LCall _ _ _ _ oc | LPublish _ _ _ oc => oc = Arrived
  | _ => True
  end.

(** No scheduler is in the middle of sending tables. *)
Definition at_rest (s : sys) : Prop := ∀ i c, sy_scheds s !! i = Some c -> sc_pub c = None.
