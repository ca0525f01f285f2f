(** Vocabulary of the routing properties. *)
From stdpp Require Import prelude gmap strings list.
From Verif.Base Require Import GoInt Envelope.
From Verif.Store Require Import Model Spec.
From Verif.Routing Require Import Model.
Open Scope Z_scope.

(** A 64-bit hash value. *)
Definition is_hash (h : Z) : Prop := 0 <= h < 2 ^ 64.

(** [h] lies in the range. *)
Definition covers (r : range) (h : Z) : Prop := r_start r <= h <= r_end r.

(** The ranges partition the hash space: each hash lies in the range at exactly one position. *)
Definition partition (rs : list range) : Prop :=
  (∀ r, r ∈ rs -> r_start r <= r_end r) ∧
  ∀ h, is_hash h -> ∃ i r, rs !! i = Some r ∧ covers r h ∧
    ∀ j r', rs !! j = Some r' -> covers r' h -> j = i.

(** Node i of the address list owns hash h under an assignment of ranges to addresses. *)
Definition owns (addrs : list string) (req : gmap string (list range)) (h : Z) (i : nat) : Prop :=
  ∃ addr rs r, addrs !! i = Some addr ∧ req !! addr = Some rs ∧ r ∈ rs ∧ covers r h.

(** Every address of the assignment is in the address list. *)
Definition known_addrs (addrs : list string) (req : gmap string (list range)) : Prop :=
  ∀ a, is_Some (req !! a) -> a ∈ addrs.

(** [table_after addrs reqs t]: t may be the table after the SetRanges requests reqs. *)
Inductive table_after (addrs : list string) : list (gmap string (list range)) -> list rinfo -> Prop :=
| ta_new : table_after addrs [] []
| ta_set reqs t req t' :
    table_after addrs reqs t -> set_ranges addrs t req t' -> table_after addrs (reqs ++ [req]) t'.

(** What a sequence of calls delivers to node i, in order. *)
Definition delivered (i : nat) (calls : list (nat * send_request)) : list envelope :=
  c ← calls; if decide (c.1 = i) then get_batch c.2 else [].

(** How often i occurs. *)
Definition times (i : nat) (l : list nat) : nat := length (filter (fun j => j = i) l).

(** The answer for one key: that of the last client that succeeded and knows it. *)
Fixpoint last_answer (answers : list (option (gmap string meta_info))) (k : string) : option meta_info :=
  match answers with
  | [] => None
  | a :: l => match last_answer l k with
              | Some v => Some v
              | None => match a with Some m => m !! k | None => None end
              end
  end.

(** A history of Meta calls on one proxy: what happened at each call. *)
Record meta_call := mk_call {
  c_local : bool;            (* the request was local-only *)
  c_t1 : Z;                  (* clock when the cache is consulted *)
  c_t2 : Z;                  (* clock when the cache is filled *)
  c_answers : list (option (gmap string meta_info))   (* what the clients answer if asked *) }.
Record meta_event := mk_event {
  ev_call : meta_call; ev_result : option (gmap string meta_info); ev_asked : bool }.
Fixpoint meta_run (localIdx : nat) (e : egress) (cs : list meta_call) : egress * list meta_event :=
  match cs with
  | [] => (e, [])
  | c :: cs' =>
      let '(e', res, asked) := egress_meta (c_local c) (c_t1 c) (c_t2 c) localIdx (c_answers c) e in
      let '(e'', evs) := meta_run localIdx e' cs' in
      (e'', mk_event c res asked :: evs)
  end.
Definition new_egress (d : Z) : egress := mk_egress None None d.

(** The orchestrator's ranges as a plain list: additions go to the end, a removal deletes the first
    equal range. *)
Fixpoint remove_first (r : range) (l : list range) : list range :=
  match l with [] => [] | x :: l' => if decide (x = r) then l' else x :: remove_first r l' end.
Fixpoint ranges_spec (l : list range) (ps : list orch_op) : list range :=
  match ps with
  | [] => l
  | AddRange (Some r) :: ps' => ranges_spec (l ++ [r]) ps'
  | RemoveRange (Some r) :: ps' => ranges_spec (remove_first r l) ps'
  | _ :: ps' => ranges_spec l ps'
  end.
(** the request carries a range *)
Definition has_range (p : orch_op) : Prop :=
  match p with AddRange r => is_Some r | RemoveRange r => is_Some r end.
Definition is_add (p : orch_op) : Prop := match p with AddRange _ => True | RemoveRange _ => False end.

(** A static lookup's share of the hash space: node i gets [i*x, (i+1)*x), the last node the rest. *)
Definition static_owner (n h i : Z) : Prop :=
  0 <= i < n ∧ i * (max_uint64 / n) <= h ∧ (i < n - 1 -> h < (i + 1) * (max_uint64 / n)).

(** ** Reads *)

(** The request is acceptable. *)
Definition acceptable (compile : string -> option (string -> bool)) (rq : read_request) : Prop :=
  (rr_end rq = 0 ∨ rr_start rq <= rr_end rq) ∧ 0 <= rr_limit rq <= 1000 ∧
  (rr_name rq = "" ∨ is_Some (compile (rr_name rq))).

(** What the store is asked: the request with its defaults filled in. *)
Record resolved (compile : string -> option (string -> bool)) (now : Z) (rq : read_request) (q : query) : Prop := {
  rs_start : q_start q = rr_start rq;
  rs_end : (rr_end rq ≠ 0 -> q_end q = rr_end rq) ∧ (rr_end rq = 0 -> q_end q = now);
  rs_limit : (rr_limit rq ≠ 0 -> q_limit q = rr_limit rq) ∧ (rr_limit rq = 0 -> q_limit q = 100);
  rs_desc : q_desc q = rr_desc rq;
  rs_name : (rr_name rq = "" -> q_name q = None) ∧ (rr_name rq ≠ "" -> q_name q = compile (rr_name rq));
}.

(** Types requested by a read: nothing but ANY (or nothing at all) means every type. *)
Definition requested_type (types : list etype) (e : envelope) : Prop :=
  (∀ t, t ∈ types -> t = T_ANY) ∨ ∃ t, t ∈ types ∧ t ≠ T_ANY ∧ is_of_type e t.

(** Only the API's enum values. *)
Definition enum_types (types : list etype) : Prop := ∀ t n, t ∈ types -> t ≠ T_UNKNOWN n.

(** ** Clusters *)

(** All nodes use a table for the same request. *)
Definition same_tables (addrs : list string) (req : gmap string (list range)) (c : list node) : Prop :=
  length c = length addrs ∧
  ∀ i n, c !! i = Some n -> ∃ old, set_ranges addrs old req (n_table n).

(** No address is assigned two ranges with a hash in common. *)
Definition no_overlap (req : gmap string (list range)) : Prop :=
  ∀ a rs, req !! a = Some rs ->
  ∀ h i j r r', rs !! i = Some r -> rs !! j = Some r' -> covers r h -> covers r' h -> i = j.

(** The envelopes of a batch that belong to one source. *)
Definition of_source (src : string) (batch : list envelope) : list envelope :=
  filter (fun e => e_source e = src) batch.

(** Writing envelopes to a store, each under its own source id. *)
Definition writes (now : Z) (es : list envelope) : list op := (fun e => OPut e (e_source e) now) <$> es.
