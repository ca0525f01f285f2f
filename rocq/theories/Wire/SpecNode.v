(** Vocabulary for a node behind its port. *)
From Coq Require Import Ascii String.
From stdpp Require Import prelude strings list gmap.
From Verif.Base Require Import GoInt Envelope.
From Verif.Routing Require Import Model Spec.
From Verif.Whole Require Import SpecFull.
From Verif.Http Require Import Model.
From Verif.Wire Require Import Format Model Node.
Open Scope Z_scope.

(** The envelopes a call brings that are for this node: all of them if the sender says that they stay here *)
Definition brought (mine : string -> bool) (c : call) : list envelope :=
  match c with
  | CallSend _ b =>
      match unmarshal_send b with
      | Some r => if sr_local_only r then get_batch r else filter (fun e => mine (e_source e)) (get_batch r)
      | None => []
      end
  | _ => []
  end.
(** ... those a history brings, and those of one source among them *)
Definition brought_all (mine : string -> bool) (cs : list call) : list envelope := cs ≫= brought mine.
Definition sent_for (mine : string -> bool) (src : string) (cs : list call) : list envelope := of_source src (brought_all mine cs).

(** [may_hold mine m src cs l]: after these calls a node that holds m per source may hold l of this one: what was sent is kept in time
    order, the earliest make room, and a tick takes some of the earliest. *)
Inductive may_hold (mine : string -> bool) (m : Z) (src : string) : list call -> list envelope -> Prop :=
| hold_start : may_hold mine m src [] []
| hold_tick cs older newer now n pri : may_hold mine m src cs (older ++ newer) -> may_hold mine m src (cs ++ [Tick now n pri]) newer
| hold_call cs l c : (forall now n pri, c <> Tick now n pri) -> may_hold mine m src cs l ->
    may_hold mine m src (cs ++ [c]) (foldl (keep m) l (of_source src (brought mine c))).

(** A Send whose batch is not set, and which is not meant to stay here *)
Definition no_batch (c : call) : Prop :=
  exists now b, c = CallSend now b /\ unmarshal_send b = Some (mk_send false None).
(** A Read that names a type of envelope that there is not *)
Definition odd_type (c : call) : Prop :=
  exists now b r n, c = CallRead now b /\ unmarshal_read b = Some r /\ T_UNKNOWN n ∈ rr_types r.

(** The envelopes leave gaps: a source holds at most 4000 (m), or whenever one arrives fewer than 4000 earlier ones of its source are
    within 4000 ns of it (and timestamps keep 4000 ns clear of the int64 maximum) *)
Definition spread (m : Z) (l : list envelope) : Prop :=
  m <= 4000 \/
  forall pre e post, l = pre ++ e :: post ->
    in64 (e_ts e) /\ in64 (e_ts e + 4000) /\
    Z.of_nat (length (filter (fun x => e_ts e - 4000 <= e_ts x <= e_ts e + 4000) (filter (fun x => e_source x = e_source e) pre))) < 4000.
