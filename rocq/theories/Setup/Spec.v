(** Vocabulary: what a setting's text says; nodes that are wired as their addresses say. *)
From Coq Require Import Ascii String.
From stdpp Require Import prelude gmap strings list.
From Verif.Base Require Import GoInt Envelope Str Dec.
From Verif.Routing Require Import Model.
From Verif.Setup Require Import Model.
Open Scope string_scope.
Open Scope list_scope.
Open Scope Z_scope.

(** space, and tab to carriage return *)
Definition is_blank (c : ascii) : Prop := nat_of_ascii c = 32%nat \/ (9 <= nat_of_ascii c <= 13)%nat.
Inductive blanks : string -> Prop :=
| blanks_nil : blanks ""
| blanks_cons c s : is_blank c -> blanks s -> blanks (String c s).
(** [t] is [s] without the blanks around it *)
Definition trimmed (s t : string) : Prop :=
  (exists u v, s = append u (append t v) /\ blanks u /\ blanks v) /\
  (forall c r, t = String c r -> ~ is_blank c) /\ (forall c r, t = append r (String c "") -> ~ is_blank c).
(** the elements between the commas *)
Definition listed (s : string) (l : list string) : Prop :=
  exists parts, parts <> [] /\ s = join "," parts /\ Forall (fun p => has_char "," p = false) parts /\ Forall2 trimmed parts l.
Definition says (duration : string -> option Z) (k : kind) (s : string) (v : setting) : Prop :=
  match k, v with
  | KText, SText t => t = s
  | KInt, SInt n => signed_numeral s n /\ - 2 ^ 63 <= n < 2 ^ 63
  | KUint, SInt n => numeral s n /\ n < 2 ^ 64
  | KBool, SBool b => b = true <-> s = "true" \/ s = "1"
  | KDuration, SInt n => duration s = Some n
  | KList, SList l => listed s l
  | _, _ => False
  end.
(** a field is given by the environment, or it may be left out and is what it was *)
Definition given (duration : string -> option Z) (env : environment) (f : field) (v : setting) : Prop :=
  (env (f_name f) <> "" /\ says duration (f_kind f) (env (f_name f)) v) \/
  (env (f_name f) = "" /\ f_required f = false /\ v = f_default f).
(** it is not given, but it has to be *)
Definition lacks (env : environment) (f : field) : Prop := f_required f = true /\ env (f_name f) = "".
(** what is given says something *)
Definition sensible (duration : string -> option Z) (env : environment) (f : field) : Prop :=
  env (f_name f) <> "" -> exists v, says duration (f_kind f) (env (f_name f)) v.
(** an optional number, text or list with its default *)
Definition optional (env : environment) (name : string) {A} (reading : string -> A -> Prop) (default v : A) : Prop :=
  (env name = "" /\ v = default) \/ (env name <> "" /\ reading (env name) v).
Definition int_text (s : string) (n : Z) : Prop := signed_numeral s n /\ - 2 ^ 63 <= n < 2 ^ 63.
Definition some_setting (duration : string -> option Z) (env : environment) (k : kind) (name : string) : Prop :=
  env name <> "" -> exists v, says duration k (env name) v.

(** ** Wiring *)
(** The node at position k listens on the k-th address and knows it: its client k is itself, every other client j
    calls the j-th address *)
Definition wired_at (addrs : list string) (k : nat) (d : live) : Prop :=
  l_local d = k /\ length (l_peers d) = length addrs /\
  forall j b, addrs !! j = Some b -> l_peers d !! j = Some (if decide (j = k) then Here else There b).
Definition wired (addrs : list string) (w : net) : Prop :=
  NoDup addrs /\ forall k a, addrs !! k = Some a -> exists d, w_nodes w !! a = Some d /\ wired_at addrs k d.
(** the nodes in the order of their addresses, without their wiring *)
Definition bare (d : live) : node := mk_node (l_table d) (l_store d).
Definition is_cluster (addrs : list string) (w : net) (c : list node) : Prop :=
  Forall2 (fun a n => exists d, w_nodes w !! a = Some d /\ n = bare d) addrs c.
(** all that is on its way is for one of them *)
Definition addressed (addrs : list string) (w : net) : Prop := Forall (fun m => m.1 ∈ addrs) (w_wire w).
(** an answer that came from the k-th of them *)
Definition same_answer (addrs : list string) (x : cluster_answer) (y : net_answer) : Prop :=
  match x, y with
  | CUnavailable, NUnavailable => True
  | CPanic, NPanic => True
  | CServed k o, NServed a o' => addrs !! k = Some a /\ o' = o
  | _, _ => False
  end.
(** ** Histories of nodes: a call of Send, an arrival, a new routing table *)
Inductive net_step (hash : string -> Z) : net -> net -> Prop :=
| step_send now a r order w w' : send_at hash now a r order w = Some w' -> net_step hash w w'
| step_arrive now k w w' : arrive hash now k w = Some w' -> net_step hash w w'
| step_table a d t w : w_nodes w !! a = Some d ->
    net_step hash w (mk_net (<[a := mk_live (l_peers d) (l_local d) t (l_store d)]> (w_nodes w)) (w_wire w)).
