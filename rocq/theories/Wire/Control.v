(** The orchestration service of a node (api/v1/orchestration.proto) behind its gRPC port: requests are bytes, whoever
    wrote them, and so are its answers.  Handlers run at the same time: ListRanges hands out the slice under the lock
    (internal/routing/orchestrator.go:58-65) and the answer is encoded from it after the lock is gone, so that other
    calls may come between; everything else a handler does is one step under a lock (orchestrator.go:33, 44;
    routing_table.go:78). *)
From Coq Require Import Ascii String.
From stdpp Require Import prelude strings list gmap.
From Verif.Base Require Import GoInt Envelope.
From Verif.Routing Require Import Model.
From Verif.Wire Require Import Format Model.
Open Scope string_scope.
Open Scope list_scope.
Open Scope Z_scope.

(** What reaches the node.  [Encode k]: the server goes on with the k-th answer to ListRanges (grpc-go server.go
    processUnaryRPC: sendResponse after the handler has returned). *)
Inductive control := CallAdd (b : string) | CallRemove (b : string) | CallList (b : string) | CallSet (b : string) | Encode (k : nat).

(** orchestrator.go:11-16 and routing_table.go:12-19; the slices that were handed out *)
Record agent := mk_agent { ag_orch : orch; ag_table : list rinfo; ag_listed : list (option slice) }.
(** log_cache.go:182-184 *)
Definition new_agent : agent := mk_agent new_orch [] [].

(** orchestration.pb.go:248-252 ListRangesRequest has no fields: what is there is skipped *)
Definition nothing_step : reader unit := fun _ _ => Some tt.
Definition unmarshal_nothing (s : string) : option unit := merge nothing_step tt s.

(** orchestration.pb.go:317-322 SetRangesRequest.  The value of an entry that has none is a nil pointer if [nils], as
    golang/protobuf had it before 1.4 (table_unmarshal.go makeUnmarshalMap: v := reflect.New(vt)); later ones put an
    empty message there.  The repository does not say which it is built with. *)
Definition dec_some_ranges (v : option (list range)) (w : wire) : option (option (list range)) :=
  get_msg ranges_step (default [] v) w v Some.
Definition assignment_step (nils : bool) : reader (gmap string (option (list range))) := fun m '(k, w) =>
  if k =? 1 then get_entry dec_some_ranges (if nils then None else Some []) w m m id else Some m.
Definition unmarshal_assignment (nils : bool) (s : string) : option (gmap string (option (list range))) :=
  merge (assignment_step nils) ∅ s.

(** table_marshal.go makeMessageSliceMarshaler: a nil element fails the message (errRepeatedHasNil) *)
Definition marshal_listed (l : list (option range)) : option string := rs ← mapM id l; marshal_ranges rs.

(** [Refused]: an error; [Done]: the empty message of AddRangeResponse, RemoveRangeResponse, SetRangesResponse;
    [Promised k]: ListRanges has returned, its answer is the k-th; [Answered b]: these bytes are sent *)
Inductive reply := Refused | Done | Promised (k : nat) | Answered (b : string).

(** orchestration.pb.go _Orchestration_…_Handler: what cannot be decoded is refused, the rest goes to
    orchestrator.go:32-70 and routing_table.go:77-97.  None: the process panics (no interceptor of the server recovers,
    log_cache.go:247); at routing_table.go:83 ranges.Ranges dereferences the nil pointer of an entry without a value. *)
Definition control_call (grow : nat -> nat) (nils : bool) (addrs : list string) (c : control) (s : agent)
    (r : option (agent * reply)) : Prop :=
  match c with
  | CallAdd b =>
      r = match unmarshal_range b with
          | None => Some (s, Refused)
          | Some x => Some (mk_agent (add_range grow x (ag_orch s)) (ag_table s) (ag_listed s), Done)
          end
  | CallRemove b =>
      r = match unmarshal_range b with
          | None => Some (s, Refused)
          | Some x => o ← remove_range x (ag_orch s); Some (mk_agent o (ag_table s) (ag_listed s), Done)
          end
  | CallList b =>
      r = match unmarshal_nothing b with
          | None => Some (s, Refused)
          | Some _ => Some (mk_agent (ag_orch s) (ag_table s) (ag_listed s ++ [list_ranges (ag_orch s)]), Promised (length (ag_listed s)))
          end
  | Encode k =>
      exists sl, ag_listed s !! k = Some sl /\
      r = Some (s, match marshal_listed (slice_read (o_mem (ag_orch s)) sl) with None => Refused | Some b => Answered b end)
  | CallSet b =>
      match unmarshal_assignment nils b with
      | None => r = Some (s, Refused)
      | Some m =>
          match mapM (fun kv : string * option (list range) => v ← kv.2; Some (kv.1, v)) (map_to_list m) with
          | None => r = None
          | Some kvs => exists t, set_ranges addrs (ag_table s) (list_to_map kvs) t /\ r = Some (mk_agent (ag_orch s) t (ag_listed s), Done)
          end
      end
  end.
(** a history of the node with the replies that were given *)
Inductive control_run (grow : nat -> nat) (nils : bool) (addrs : list string) : agent -> list (control * reply) -> agent -> Prop :=
| cr_nil s : control_run grow nils addrs s [] s
| cr_cons s c a s' tr s'' : control_call grow nils addrs c s (Some (s', a)) -> control_run grow nils addrs s' tr s'' ->
    control_run grow nils addrs s ((c, a) :: tr) s''.
