(** Vocabulary: the Go values that messages hold, and their texts. *)
From Coq Require Import Ascii String.
From stdpp Require Import prelude strings list gmap.
From Verif.Base Require Import Envelope.
From Verif.Routing Require Import Model.
From Verif.Http Require Import Model.
From Verif.Json Require Import Spec SpecPb.
From Verif.Wire Require Import Format.
Open Scope Z_scope.

Definition int32 (n : Z) : Prop := - 2^31 <= n < 2^31.
(** numbers have the size of their Go types *)
Definition sized_message (m : message) : Prop :=
  match m with
  | MCounter _ delta total => uint64 delta /\ uint64 total
  | MTimer _ start stop => int64 start /\ int64 stop
  | MGauge metrics => forall k g, metrics !! k = Some g -> uint64 (gv_value g)
  | _ => True
  end.
Definition sized (e : envelope) : Prop := int64 (e_ts e) /\ sized_message (e_msg e).
Definition sized_batch (b : option (list envelope)) : Prop := forall es e, b = Some es -> e ∈ es -> sized e.
Definition sized_type (t : etype) : Prop :=
  match t with T_UNKNOWN n => int32 n /\ ~ 0 <= n <= 5 | _ => True end.
Definition sized_read (r : read_request) : Prop :=
  int64 (rr_start r) /\ int64 (rr_end r) /\ int64 (rr_limit r) /\ Forall sized_type (rr_types r).
Definition sized_info (i : meta_info) : Prop :=
  int64 (mi_count i) /\ int64 (mi_expired i) /\ int64 (mi_oldest i) /\ int64 (mi_newest i).
Definition sized_range (r : Routing.Model.range) : Prop := uint64 (r_start r) /\ uint64 (r_end r).

(** a text of the envelope that protobuf types as a string *)
Inductive text_of (e : envelope) : string -> Prop :=
| in_source : text_of e (e_source e)
| in_instance : text_of e (e_instance e)
| in_tag k v : e_tags e !! k = Some v -> forall t, t = k \/ t = v -> text_of e t
| in_old_tag k v : e_deprecated_tags e !! k = Some v -> forall t, t = k \/ t = v -> text_of e t
| in_counter name d t : e_msg e = MCounter name d t -> text_of e name
| in_timer name a b : e_msg e = MTimer name a b -> text_of e name
| in_gauge m k g : e_msg e = MGauge m -> m !! k = Some g -> forall t, t = k \/ t = gv_unit g -> text_of e t
| in_event title body : e_msg e = MEvent title body -> forall t, t = title \/ t = body -> text_of e t.

(** a message that can be held in memory: its size in bytes is a Go int *)
Definition fits (s : string) : Prop := Z.of_nat (String.length s) < 2^63.

(** shorter than 2 GiB, which is protobuf's limit for a message *)
Definition short (s : string) : Prop := Z.of_nat (String.length s) < 2^31.

(** a field with a number and a value that the wire format can carry *)
Definition carries (w : wire) : Prop :=
  match w with
  | Varint n => uint64 n | Fixed64 n => uint64 n | Fixed32 n => 0 <= n < 2^32
  | Bytes s => Z.of_nat (String.length s) < 2^64
  end.
Definition legal (fs : list field) : Prop := Forall (fun f => 1 <= f.1 < 2^29 /\ carries f.2) fs.
(** Two writers give every field the same values in the same order; [slot] tells the fields that exclude each other *)
Definition alike (slot : Z -> Z) (fs gs : list field) : Prop :=
  forall k, filter (fun f => slot f.1 = k) fs = filter (fun f => slot f.1 = k) gs.
(** the payloads of an envelope are the members of one oneof *)
Definition payload (k : Z) : Z := if bool_decide (k ∈ [4; 5; 6; 7; 10]) then 4 else k.
(** an entry of a map *)
Definition entry (key : string) (w : wire) : wire := Bytes (write_fields [(1, Bytes key); (2, w)]).
