(** Model of internal/routing, of the range arithmetic of internal/scheduler and of the wiring in
    internal/cache/log_cache.go.  The hash function is a parameter: the code only uses its value. *)
From stdpp Require Import prelude gmap strings list.
From Verif.Base Require Import GoInt Envelope.
From Verif.Store Require Import Avl Model.
Open Scope Z_scope.

(** ** Ranges and the routing table *)

(** routing_table.go:111-114 Range (uint64 bounds, both inclusive) *)
Record range := mk_range { r_start : Z; r_end : Z }.
Global Instance range_eq_dec : EqDecision range.
Proof. solve_decision. Defined.

(** routing_table.go:128-131 rangeInfo *)
Record rinfo := mk_ri { ri_range : range; ri_idx : nat }.

(** routing_table.go:21-32 NewRoutingTable: later duplicates of an address win *)
Definition addr_index (addrs : list string) : gmap string nat :=
  foldl (fun m p => <[p.2 := p.1]> m) ∅ (imap pair addrs).

(** routing_table.go:42 (negated): h is inside the range *)
Definition in_range (h : Z) (r : range) : bool := negb ((h <? r_start r) || (r_end r <? h)).

(** routing_table.go:36-51 Lookup, on the hash of the item *)
Definition lookup (h : Z) (table : list rinfo) : list nat :=
  omap (fun ri => if in_range h (ri_range ri) then Some (ri_idx ri) else None) table.

(** routing_table.go:99-109 findRange; None is -1 *)
Fixpoint find_range (h : Z) (rs : list rinfo) : option nat :=
  match rs with
  | [] => None
  | r :: rs' => if in_range h (ri_range r) then Some 0%nat else S <$> find_range h rs'
  end.

(** routing_table.go:55-74 LookupAll; the loop shortens [ranges] at every iteration, [fuel] bounds
    the number of iterations and None means it ran out *)
Fixpoint lookup_all_loop (fuel : nat) (h : Z) (rs : list rinfo) (result : list nat) : option (list nat) :=
  match fuel with
  | O => None
  | S fuel' =>
      match find_range h rs with
      | None => Some result
      | Some i => r ← rs !! i; lookup_all_loop fuel' h (drop (S i) rs) (result ++ [ri_idx r])
      end
  end.
Definition lookup_all (h : Z) (table : list rinfo) : option (list nat) :=
  lookup_all_loop (S (length table)) h table [].

(** logcache_v1.SetRangesRequest; nil map values and nil ranges, which protobuf does not decode to,
    are not represented *)
Notation set_ranges_request := (gmap string (list range)).

(** routing_table.go:81-92: the appended entries for one iteration order of the request map.
    An address that is not in the table maps to Go's zero value, node 0. *)
Definition table_entries (addrs : list string) (order : list (string * list range)) : list rinfo :=
  p ← order; (fun r => mk_ri r (default 0%nat (addr_index addrs !! p.1))) <$> p.2.

(** routing_table.go:139-145 Less *)
Definition less (a b : rinfo) : bool :=
  if r_start (ri_range a) =? r_start (ri_range b) then (ri_idx b <? ri_idx a)%nat
  else r_start (ri_range a) <? r_start (ri_range b).

(** routing_table.go:77-97 SetRanges: [set_ranges addrs old req table] says that [table] is a table
    the call may install when [old] was installed: the old table is dropped (line 81), the map may be
    visited in any order, and sort.Sort (not stable) may produce any permutation in which no entry is
    Less than an earlier one. *)
Definition set_ranges (addrs : list string) (old : list rinfo) (req : set_ranges_request) (table : list rinfo) : Prop :=
  ∃ order, order ≡ₚ map_to_list req ∧
    table ≡ₚ [] ++ table_entries addrs order ∧
    ∀ i j a b, (i < j)%nat -> table !! i = Some a -> table !! j = Some b -> less b a = false.

(** ** Static lookup *)

(** gods avltree Floor (used at static_lookup.go:41) *)
Fixpoint floor_node {V} (k : Z) (t : tree V) (best : option (Z * V)) : option (Z * V) :=
  match t with
  | Leaf => best
  | Node _ k' v l r =>
      match Z.compare k k' with
      | Eq => Some (k', v)
      | Lt => floor_node k l best
      | Gt => floor_node k r (Some (k', v))
      end
  end.

(** static_lookup.go:26-29: the loop from i on, [m] iterations left; uint64 products wrap *)
Fixpoint static_fill (m : nat) (i x : Z) (t : avltree Z) : option (avltree Z) :=
  match m with
  | O => Some t
  | S m' => t' ← avl_put (wrapu64 (i * x)) i t; static_fill m' (i + 1) x t'
  end.
(** static_lookup.go:17-34 NewStaticLookup; None is the panic for n <= 0 *)
Definition new_static (n : Z) : option (avltree Z) :=
  if n <=? 0 then None
  else static_fill (Z.to_nat n) 0 (max_uint64 / n) avl_new.
(** static_lookup.go:38-42 Lookup on a hash; a nil node is a panic *)
Definition static_lookup (t : avltree Z) (h : Z) : option Z := snd <$> floor_node h (av_root t) None.

(** ** Scheduler *)

(** scheduler.go:122-135: the loop, [m] iterations left; uint64 arithmetic wraps *)
Fixpoint sched_loop (m : nat) (start x : Z) : list range * Z :=
  match m with
  | O => ([], start)
  | S m' => let '(rs, s') := sched_loop m' (wrapu64 (start + (x + 1))) x in
            (mk_range start (wrapu64 (start + x)) :: rs, s')
  end.
(** scheduler.go:116-143 Start: the ranges handed to the orchestrator for a count n;
    uint64(n) of a negative n is 2^64 + n; division by zero panics *)
Definition sched_ranges (n : Z) : option (list range) :=
  if n =? 0 then None
  else let x := max_uint64 / wrapu64 n in
       let '(rs, start) := sched_loop (Z.to_nat (n - 1)) 0 x in
       Some (rs ++ [mk_range start max_uint64]).

(** scheduler.go:176-191 convertWorkerState: worker address and its tasks, later equal addresses win *)
Definition convert_worker_state (ws : list (string * list range)) : set_ranges_request :=
  foldl (fun m w => <[w.1 := w.2]> m) ∅ ws.

(** ** Reverse proxies *)

(** logcache_v1.SendRequest; the Envelopes message may be missing *)
Record send_request := mk_send { sr_local_only : bool; sr_envelopes : option (list envelope) }.
(** generated getters: r.GetEnvelopes().GetBatch() is nil-safe *)
Definition get_batch (r : send_request) : list envelope := default [] (sr_envelopes r).

(** ingress_reverse_proxy.go:46-52 envelopesByNode *)
Definition group_one (lk : string -> list nat) (m : gmap nat (list envelope)) (e : envelope)
  : gmap nat (list envelope) :=
  foldl (fun m idx => <[idx := default [] (m !! idx) ++ [e]]> m) m (lk (e_source e)).
Definition envelopes_by_node (lk : string -> list nat) (batch : list envelope) : gmap nat (list envelope) :=
  foldl (group_one lk) ∅ batch.

(** ingress_reverse_proxy.go:41-69 Send: the requests sent to the clients, in order; [order] is the
    iteration order of the map (see [send_calls]).  None is an index out of range panic, or the nil
    dereference r.Envelopes.Batch at line 48.
    Client errors are only logged, so they do not appear. *)
Definition send_with (lk : string -> list nat) (nclients localIdx : nat) (r : send_request)
    (order : list (nat * list envelope)) : option (list (nat * send_request)) :=
  if sr_local_only r then
    if (localIdx <? nclients)%nat then Some [(localIdx, r)] else None
  else
    match sr_envelopes r with
    | None => None
    | Some _ =>
        if forallb (fun p => p.1 <? nclients)%nat order
        then Some ((fun p => (p.1, mk_send true (Some p.2))) <$> order) else None
    end.
(** the possible call sequences of Send *)
Definition send_calls (lk : string -> list nat) (nclients localIdx : nat) (r : send_request)
    (out : option (list (nat * send_request))) : Prop :=
  ∃ order, order ≡ₚ map_to_list (envelopes_by_node lk (get_batch r)) ∧
           out = send_with lk nclients localIdx r order.

Inductive read_route := Unavailable | CallNode (i : nat).
(** egress_reverse_proxy.go:54-65 Read: where the request goes; [rnd] is rand's source, rand.Intn(n)
    is [rnd mod n].  None is an index out of range panic. *)
Definition read_route_of (idx : list nat) (nclients localIdx rnd : nat) : option read_route :=
  match idx with
  | [] => Some Unavailable
  | _ => if existsb (Nat.eqb localIdx) idx
         then if (localIdx <? nclients)%nat then Some (CallNode localIdx) else None
         else i ← idx !! (rnd mod length idx)%nat;
              if (i <? nclients)%nat then Some (CallNode i) else None
  end.

(** ** Meta with its caches *)

(** logcache_v1.MetaResponse *)
Notation meta_resp := (gmap string meta_info).
(** egress_reverse_proxy.go:148-152 metaCache (the duration is the proxy's) *)
Record meta_cache := mk_mc { mc_time : Z; mc_resp : meta_resp }.
Record egress := mk_egress {
  eg_remote : option meta_cache; eg_local : option meta_cache; eg_duration : Z }.
(** egress_reverse_proxy.go:154-160 expired *)
Definition expired (now d : Z) (c : option meta_cache) : bool :=
  match c with None => true | Some c => mc_time c + d <? now end.

(** egress_reverse_proxy.go:109-122 the loop over the clients: None is a failed call *)
Fixpoint gather (answers : list (option meta_resp)) (acc : meta_resp) (errs : nat) : meta_resp * nat :=
  match answers with
  | [] => (acc, errs)
  | None :: l => gather l acc (S errs)
  | Some m :: l => gather l (m ∪ acc) errs
  end.

(** egress_reverse_proxy.go:68-136 Meta: [t1] is the clock when expired() runs, [t2] when the cache is
    filled, [answers] what each client answers if asked.  The result is None for an error; the
    boolean says whether clients were asked. *)
Definition egress_meta (local : bool) (t1 t2 : Z) (localIdx : nat) (answers : list (option meta_resp)) (e : egress)
  : egress * option meta_resp * bool :=
  if local then
    if expired t1 (eg_duration e) (eg_local e) then
      match mjoin (answers !! localIdx) with
      | None => (e, None, true)
      | Some m => (mk_egress (eg_remote e) (Some (mk_mc t2 m)) (eg_duration e), Some m, true)
      end
    else (e, mc_resp <$> eg_local e, false)
  else
    if expired t1 (eg_duration e) (eg_remote e) then
      let '(res, errs) := gather answers ∅ 0 in
      if (errs =? length answers)%nat then (e, None, true)
      else (mk_egress (Some (mk_mc t2 res)) (eg_local e) (eg_duration e), Some res, true)
    else (e, mc_resp <$> eg_remote e, false).

(** ** Orchestrator agent, with slices as (block, length) over shared backing arrays *)

(** The elements are pointers to ranges; None is the nil pointer of a request without a range.
    A Go slice of ranges: which backing array and how many of its elements.  All slices of this
    type start at offset 0 in this code. *)
Record slice := mk_slice { sl_block : nat; sl_len : nat }.
(** Backing arrays: contents beyond the written part are irrelevant, so an array is the list of its
    written cells and its capacity. *)
Record block := mk_block { b_cells : list (option range); b_cap : nat }.
Record orch := mk_orch { o_mem : list block; o_ranges : option slice }.

(** reading a slice *)
Definition slice_read (mem : list block) (s : option slice) : list (option range) :=
  match s with
  | None => []
  | Some s => match mem !! sl_block s with Some b => take (sl_len s) (b_cells b) | None => [] end
  end.

(** orchestrator.go:32-39 AddRange: append grows into a new array when the capacity is reached;
    [grow n] is the new capacity Go picks for n+1 elements (at least n+1) *)
Definition add_range (grow : nat -> nat) (r : option range) (o : orch) : orch :=
  match o_ranges o with
  | None => mk_orch (o_mem o ++ [mk_block [r] (S (grow 0%nat))]) (Some (mk_slice (length (o_mem o)) 1))
  | Some s =>
      match o_mem o !! sl_block s with
      | None => o
      | Some b =>
          if (sl_len s <? b_cap b)%nat then
            (* write cell sl_len in place *)
            let cells := take (sl_len s) (b_cells b) ++ [r] ++ drop (S (sl_len s)) (b_cells b) in
            mk_orch (<[sl_block s := mk_block cells (b_cap b)]> (o_mem o))
                    (Some (mk_slice (sl_block s) (S (sl_len s))))
          else
            mk_orch (o_mem o ++ [mk_block (take (sl_len s) (b_cells b) ++ [r]) (S (sl_len s) + grow (sl_len s))])
                    (Some (mk_slice (length (o_mem o)) (S (sl_len s))))
      end
  end.

(** orchestrator.go:47-48: index of the first equal range; the outer None is a nil dereference *)
Fixpoint index_of (r : option range) (l : list (option range)) : option (option nat) :=
  match l with
  | [] => Some None
  | x :: l' =>
      x ← x; r' ← r;
      if (r_start x =? r_start r') && (r_end x =? r_end r') then Some (Some 0%nat)
      else i ← index_of r l'; Some (option_map S i)
  end.

(** orchestrator.go:43-55 RemoveRange: append(ranges[:i], ranges[i+1:]...) copies the tail down in
    place and shortens the slice; the cells beyond keep their old contents.  None is a panic. *)
Definition remove_range (r : option range) (o : orch) : option orch :=
  match o_ranges o with
  | None => Some o
  | Some s =>
      match o_mem o !! sl_block s with
      | None => Some o
      | Some b =>
          let live := take (sl_len s) (b_cells b) in
          found ← index_of r live;
          match found with
          | None => Some o
          | Some i =>
              let cells := take i live ++ drop (S i) live ++ drop (sl_len s - 1) (b_cells b) in
              Some (mk_orch (<[sl_block s := mk_block cells (b_cap b)]> (o_mem o))
                            (Some (mk_slice (sl_block s) (sl_len s - 1))))
          end
      end
  end.

(** orchestrator.go:58-65 ListRanges returns the slice itself *)
Definition list_ranges (o : orch) : option slice := o_ranges o.

(** orchestrator.go:25-29 NewOrchestratorAgent *)
Definition new_orch : orch := mk_orch [] None.
(** requests to the agent *)
Inductive orch_op := AddRange (r : option range) | RemoveRange (r : option range).
Definition orch_step (grow : nat -> nat) (o : orch) (p : orch_op) : option orch :=
  match p with AddRange r => Some (add_range grow r o) | RemoveRange r => remove_range r o end.
Fixpoint orch_run (grow : nat -> nat) (o : orch) (ps : list orch_op) : option orch :=
  match ps with [] => Some o | p :: ps' => o' ← orch_step grow o p; orch_run grow o' ps' end.

(** ** Local reader *)

(** logcache_v1.ReadRequest *)
Record read_request := mk_rr {
  rr_source : string; rr_start : Z; rr_end : Z; rr_limit : Z;
  rr_types : list etype; rr_desc : bool; rr_name : string }.

Inductive read_outcome := ReadError | ReadOk (es : list envelope) | ReadPanic.

(** local_store_reader.go:46-79: the validated store query; [compile] is regexp.Compile, [now] the
    clock.  time.Unix(0, n).UnixNano() is n for every int64. *)
Definition to_query (compile : string -> option (string -> bool)) (now : Z) (rq : read_request)
  : option query :=
  if negb (rr_end rq =? 0) && (rr_end rq <? rr_start rq) then None
  else if 1000 <? rr_limit rq then None
  else if rr_limit rq <? 0 then None
  else
    let e := if rr_end rq =? 0 then now else rr_end rq in
    let l := if rr_limit rq =? 0 then 100 else rr_limit rq in
    nf ← (if bool_decide (rr_name rq = "") then Some None else Some <$> compile (rr_name rq));
    let ts := filter (fun t => t ≠ T_ANY) (rr_types rq) in
    Some (mk_query (rr_start rq) e (match ts with [] => None | _ => Some ts end) nf l (rr_desc rq)).

(** local_store_reader.go:46-98 Read *)
Definition local_read (compile : string -> option (string -> bool)) (now : Z) (rq : read_request) (s : store)
  : read_outcome :=
  match to_query compile now rq with
  | None => ReadError
  | Some q => match get_env (rr_source rq) q s with None => ReadPanic | Some es => ReadOk es end
  end.

(** ** A cluster *)

(** log_cache.go:195-228: the client list a node builds, as the index of the node each client talks
    to; a peer whose dial fails is skipped without a placeholder *)
Fixpoint build_clients (dial_ok : nat -> bool) (nodeIndex : nat) (i : nat) (addrs : list string) : list nat :=
  match addrs with
  | [] => []
  | _ :: l => if negb (i =? nodeIndex)%nat && negb (dial_ok i)
              then build_clients dial_ok nodeIndex (S i) l
              else i :: build_clients dial_ok nodeIndex (S i) l
  end.

(** one node: its routing table and its store (log_cache.go:165-252; every node lists the same node
    addresses, so that clients[i] of every node is node i) *)
Record node := mk_node { n_table : list rinfo; n_store : store }.

(** log_cache.go:220-226 the local ingress client: Put every envelope under its own source id;
    clock readings only feed the cache-period gauge, [now] stands for them *)
Fixpoint put_all (now : Z) (es : list envelope) (s : store) : option store :=
  match es with [] => Some s | e :: es' => s' ← put_env e (e_source e) now s; put_all now es' s' end.

(** Deliver the calls of one Send: a remote call arrives at that node's proxy as a local-only request
    (ingress_reverse_proxy.go:42-44), the local call goes to the local client.  Every forwarded call is
    assumed to succeed (batched_ingress_client.go is modelled separately). *)
Fixpoint deliver (now : Z) (calls : list (nat * send_request)) (c : list node) : option (list node) :=
  match calls with
  | [] => Some c
  | (i, r) :: calls' =>
      n ← c !! i;
      s' ← put_all now (get_batch r) (n_store n);
      deliver now calls' (<[i := mk_node (n_table n) s']> c)
  end.

(** A read entering at node i; [rnds] feeds rand at each hop; the answer names the node that served
    it; None: out of fuel. *)
Inductive cluster_answer := CUnavailable | CPanic | CServed (i : nat) (a : read_outcome).
Fixpoint cluster_read (fuel : nat) (hash : string -> Z) (compile : string -> option (string -> bool)) (now : Z)
    (rnds : nat -> nat) (i : nat) (rq : read_request) (c : list node) : option (cluster_answer * nat) :=
  match fuel with
  | O => None
  | S fuel' =>
      match c !! i with
      | None => Some (CPanic, 0%nat)
      | Some n =>
          match read_route_of (lookup (hash (rr_source rq)) (n_table n)) (length c) i (rnds fuel') with
          | None => Some (CPanic, 0%nat)
          | Some Unavailable => Some (CUnavailable, 0%nat)
          | Some (CallNode j) =>
              if (j =? i)%nat then Some (CServed i (local_read compile now rq (n_store n)), 0%nat)
              else '(a, hops) ← cluster_read fuel' hash compile now rnds j rq c; Some (a, S hops)
          end
      end
  end.
