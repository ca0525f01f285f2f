(** Vocabulary of the store properties. *)
From stdpp Require Import prelude gmap strings.
From Coq Require Import Sorted.
From Verif.Base Require Import GoInt Envelope.
From Verif.Store Require Import Avl AvlProofs Model.
Open Scope Z_scope.

(** What a source holds: (storage time, envelope) pairs in storage-time order. *)
Definition stored (s : store) (src : string) : list (Z * envelope) :=
  match st_index s !! src with
  | Some sg => inorder (av_root (sg_tree sg))
  | None => []
  end.

(** Everything the store holds, as (source, (storage time, envelope)). *)
Definition all_stored (s : store) : list (string * (Z * envelope)) :=
  '(src, sg) ← map_to_list (st_index s); pair src <$> inorder (av_root (sg_tree sg)).

(** Source ids the store knows. *)
Definition known (s : store) (src : string) : Prop := is_Some (st_index s !! src).

(** What remains of the source's content once room has been made for one more envelope:
    a full source gives up its oldest entry. *)
Definition kept_on_put (s : store) (src : string) : list (Z * envelope) :=
  if st_max s <=? Z.of_nat (length (stored s src)) then tail (stored s src) else stored s src.

(** One of the storage times ts, ts+1, ..., ts+3999 is free. *)
Definition room (s : store) (src : string) (e : envelope) : Prop :=
  ∃ f, 0 <= f < 4000 ∧ wrap64 (e_ts e + f) ∉ (kept_on_put s src).*1.

(** Every Put of the history meets [room] when it happens. *)
Fixpoint roomy (s : store) (ops : list op) : Prop :=
  match ops with
  | [] => True
  | o :: ops' =>
      match o with OPut e src _ => room s src e | _ => True end ∧
      ∀ s', step s o = Some s' -> roomy s' ops'
  end.

(** Queries of the history only use the enum values of the API. *)
Definition known_types (types : option (list etype)) : Prop :=
  match types with None => True | Some ts => Forall (fun t => ∀ n, t ≠ T_UNKNOWN n) ts end.
Definition op_ok (o : op) : Prop := match o with OGet _ q => known_types (q_types q) | _ => True end.

(** Envelopes written to each source since the source last appeared in the store. *)
Definition written_step (s' : store) (o : op) (g : string -> list envelope) : string -> list envelope :=
  match o with
  | OPut e src _ => fun x => if decide (x = src) then g x ++ [e] else g x
  | OTruncate _ _ _ => fun x => match st_index s' !! x with Some _ => g x | None => [] end
  | _ => g
  end.
Fixpoint run_written (s : store) (g : string -> list envelope) (ops : list op)
  : option (store * (string -> list envelope)) :=
  match ops with
  | [] => Some (s, g)
  | o :: ops' => s' ← step s o; run_written s' (written_step s' o g) ops'
  end.

(** The largest timestamp of a list of envelopes, at least 0. *)
Definition newest_of (l : list envelope) : Z := foldr (fun e m => Z.max (e_ts e) m) 0 l.

(** ** What a query should return *)

(** The kind of message an envelope carries. *)
Definition is_of_type (e : envelope) (t : etype) : Prop :=
  match t, e_msg e with
  | T_ANY, _ => True
  | T_LOG, MLog _ _ => True
  | T_COUNTER, MCounter _ _ _ => True
  | T_GAUGE, MGauge _ => True
  | T_TIMER, MTimer _ _ _ => True
  | T_EVENT, MEvent _ _ => True
  | _, _ => False
  end.

Definition wanted_type (types : option (list etype)) (e : envelope) : Prop :=
  match types with None => True | Some ts => ∃ t, t ∈ ts ∧ is_of_type e t end.

(** [projects nf e e']: under the name filter nf the stored envelope e is presented as e'. *)
Inductive projects : option (string -> bool) -> envelope -> envelope -> Prop :=
| proj_none e : projects None e e
| proj_counter m e n d t : e_msg e = MCounter n d t -> m n = true -> projects (Some m) e e
| proj_timer m e n a b : e_msg e = MTimer n a b -> m n = true -> projects (Some m) e e
| proj_gauge (m : string -> bool) e ms (ms' : gmap string gauge_value) :
    e_msg e = MGauge ms ->
    (∀ k : string, ms' !! k = if m k then ms !! k else None) ->
    (∃ (k : string) v, ms' !! k = Some v) ->
    projects (Some m) e
      (mk_env (e_ts e) (e_source e) (e_instance e) (e_deprecated_tags e) (e_tags e) (MGauge ms')).

Definition selected (q : query) (e e' : envelope) : Prop :=
  q_start q <= e_ts e < q_end q ∧ projects (q_name q) e e' ∧ wanted_type (q_types q) e'.

(** [answers q l out]: out presents, in order, exactly the envelopes of l the query selects. *)
Inductive answers (q : query) : list envelope -> list envelope -> Prop :=
| ans_nil : answers q [] []
| ans_keep e e' l out : selected q e e' -> answers q l out -> answers q (e :: l) (e' :: out)
| ans_skip e l out : (∀ e', ¬ selected q e e') -> answers q l out -> answers q (e :: l) out.

(** The envelopes a history writes to a source, in order. *)
Definition puts_to (src : string) (ops : list op) : list envelope :=
  omap (fun o => match o with OPut e x _ => if decide (x = src) then Some e else None | _ => None end) ops.

(** Envelopes in time order (equal timestamps allowed). *)
Fixpoint time_sorted (l : list envelope) : Prop :=
  match l with [] => True | e :: l' => Forall (fun x => e_ts e <= e_ts x) l' ∧ time_sorted l' end.

(** Never 4000 or more envelopes of one source around one timestamp: either a source may hold at
    most 4000 envelopes, or every Put finds fewer than 4000 earlier Puts to its source whose
    timestamps are within 4000 ns (and timestamps keep 4000 ns clear of the int64 maximum). *)
Definition uncrowded (m : Z) (ops : list op) : Prop :=
  m <= 4000 ∨
  ∀ pre e src now post, ops = pre ++ OPut e src now :: post ->
    in64 (e_ts e) ∧ in64 (e_ts e + 4000) ∧
    Z.of_nat (length (filter (fun x => e_ts e - 4000 <= e_ts x <= e_ts e + 4000) (puts_to src pre))) < 4000.

(** Strictly increasing storage times. *)
Definition key_sorted (l : list (Z * envelope)) : Prop := StronglySorted (fun a b => a.1 < b.1) l.

(** ** The per-source index *)
Inductive tree_op (V : Type) := TPut (k : Z) (v : V) | TRemove (k : Z).
Arguments TPut {V} k v.
Arguments TRemove {V} k.

(** Sequences of index operations, run on the tree and on a finite map. *)
Section idx.
Context {V : Type}.
Fixpoint tree_run (t : avltree V) (ops : list (tree_op V)) : option (avltree V) :=
  match ops with
  | [] => Some t
  | TPut k v :: ops' => t' ← avl_put k v t; tree_run t' ops'
  | TRemove k :: ops' => t' ← avl_remove k t; tree_run t' ops'
  end.
Fixpoint map_run (m : gmap Z V) (ops : list (tree_op V)) : gmap Z V :=
  match ops with
  | [] => m
  | TPut k v :: ops' => map_run (<[k := v]> m) ops'
  | TRemove k :: ops' => map_run (delete k m) ops'
  end.
Fixpoint height (t : tree V) : nat :=
  match t with Leaf => 0 | Node _ _ _ l r => S (Nat.max (height l) (height r)) end.
End idx.

(** Put operations of a history *)
Definition is_put (o : op) : bool := match o with OPut _ _ _ => true | _ => false end.
Definition is_truncate (o : op) : bool := match o with OTruncate _ _ _ => true | _ => false end.
