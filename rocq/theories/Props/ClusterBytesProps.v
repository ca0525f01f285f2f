(** C183: a cluster whose nodes talk in bytes.
    Vocabulary: Wire/SpecCluster.v, Whole/SpecFull.v, Store/Spec.v, Routing/Spec.v.  Runs: Wire/Cluster.v, Whole/Model.v. *)
From Coq Require Import Ascii String.
From stdpp Require Import prelude strings list gmap.
From Verif.Base Require Import GoInt Envelope.
From Verif.Store Require Import Model Spec Witness.
From Verif.Routing Require Import Model Spec.
From Verif.Whole Require Import Model Spec SpecFull Proofs ProofsFull.
From Verif.Wire Require Import Format Model Spec Frame SpecFrame FrameProofs Control Cluster SpecCluster ClusterProofs ClusterOwner ClusterWitness.
From Verif.Props Require Import WholeProps KeepProps.
Open Scope Z_scope.

(** Encoding and decoding on the way between nodes changes nothing: the cluster is after any history what the cluster of messages is
    after the messages of that history.  What C123 and C130 to C132 say of all histories so holds of this one. *)
Theorem C183_refines : forall grow nils addrs hash compile ms tr c,
  Forall (fun m => 1 <= m) ms -> bruns grow nils addrs hash compile (bstart ms) tr c ->
  runs hash compile (start ms) (messages tr) (b_cluster c).
Proof. exact bytes_refine. Qed.
Print Assumptions C183_refines.

(** The bytes that a client is given are an answer that one of the nodes found in its store while the client waited, to the question the
    client asked, however many nodes passed the question on and the answer back. *)
Theorem C183_answer : forall grow nils addrs hash compile ms pre n i b mid x post c,
  Forall (fun m => 1 <= m) ms ->
  bruns grow nils addrs hash compile (bstart ms) (pre ++ BAsk n i b :: mid ++ BGive n (Some x) :: post) c -> no_ask n mid ->
  exists rq k now es m1 m2, takes b /\ unmarshal_read b = Some rq /\ takes x /\ unmarshal_read_response x = Some (Some es) /\
    messages mid = m1 ++ VRead k rq now (ReadOk es) :: m2 /\
    (enum_types (rr_types rq) -> distinct_times (arrived k (rr_source rq) (life k (messages pre ++ m1))) ->
     exists q l all, resolved compile now rq q /\ (forall e, wanted_type (q_types q) e <-> requested_type (rr_types rq) e) /\
       holds ms k (rr_source rq) (messages pre ++ m1) l /\ answers q (if q_desc q then reverse l else l) all /\
       es = take (Z.to_nat (q_limit q)) all).
Proof.
  intros grow nils addrs hash compile ms pre n i b mid x post c Hms Hr Hno.
  destruct (bytes_answer _ _ _ _ _ _ _ _ _ _ _ _ _ _ Hms Hr Hno) as (rq & k & now & es & H1 & H2 & H3 & H4 & H5 & _).
  apply elem_of_list_split in H3 as (m1 & m2 & Em). exists rq, k, now, es, m1, m2. do 5 (split; [done|]). intros Hen HD.
  pose proof (bytes_refine _ _ _ _ _ _ _ _ Hms Hr) as HR.
  replace (messages (pre ++ BAsk n i b :: mid ++ BGive n (Some x) :: post)) with ((messages pre ++ m1) ++ VRead k rq now (ReadOk es) :: m2 ++ messages post) in HR.
  2:{ rewrite messages_app. change (messages (BAsk n i b :: mid ++ BGive n (Some x) :: post)) with (messages (mid ++ BGive n (Some x) :: post)).
      rewrite messages_app. change (messages (BGive n (Some x) :: post)) with (messages post). rewrite Em, <- !List.app_assoc. done. }
  exact (answer_held _ _ _ _ _ _ _ _ _ _ Hms HR Hen HD).
Qed.
Print Assumptions C183_answer.

(** It is the owner that answers, as long as it and the node the client asked know who it is. *)
Theorem C183_owner : forall grow nils addrs hash compile ms pre n i b mid x post c k rq,
  Forall (fun m => 1 <= m) ms ->
  bruns grow nils addrs hash compile (bstart ms) (pre ++ BAsk n i b :: mid ++ BGive n (Some x) :: post) c -> no_ask n mid ->
  unmarshal_read b = Some rq -> steady hash k i (rr_source rq) pre mid ->
  exists now es, VRead k rq now (ReadOk es) ∈ messages mid /\ unmarshal_read_response x = Some (Some es).
Proof. exact bytes_owner. Qed.
Print Assumptions C183_owner.

(** Once everything sent of a source has arrived, the answer has all of it that the request asks for, up to the limit, through any node
    that knows the owner. *)
Theorem C183_all : forall grow nils addrs hash compile ms pre n i b mid x post c c0 k m rq,
  Forall (fun m => 1 <= m) ms ->
  bruns grow nils addrs hash compile (bstart ms) (pre ++ BAsk n i b :: mid ++ BGive n (Some x) :: post) c -> no_ask n mid ->
  unmarshal_read b = Some rq -> steady hash k i (rr_source rq) pre mid ->
  bruns grow nils addrs hash compile (bstart ms) pre c0 -> routed hash k (rr_source rq) (messages pre) -> ms !! k = Some m ->
  (forall m', BRestart k m' ∉ pre ++ mid) -> (forall d pri, BPrune k d pri ∉ pre ++ mid) ->
  lost (rr_source rq) (messages pre) = [] -> of_source (rr_source rq) (c_flight (b_cluster c0)).*2 = [] -> sent_to (rr_source rq) (messages mid) = [] ->
  distinct_times (sent_to (rr_source rq) (messages pre)) -> Z.of_nat (length (sent_to (rr_source rq) (messages pre))) <= m ->
  enum_types (rr_types rq) ->
  exists now q l all, resolved compile now rq q /\ (forall e, wanted_type (q_types q) e <-> requested_type (rr_types rq) e) /\
    l ≡ₚ sent_to (rr_source rq) (messages pre) /\ time_sorted l /\ answers q (if q_desc q then reverse l else l) all /\
    unmarshal_read_response x = Some (Some (take (Z.to_nat (q_limit q)) all)).
Proof. exact bytes_all. Qed.
Print Assumptions C183_all.

(** And a node that knows the owner can give an answer, whatever came before, if it is not too large: the one the owner finds then. *)
Theorem C183_served : forall grow nils addrs hash compile ms pre c n j k rq b now,
  Forall (fun m => 1 <= m) ms -> bruns grow nils addrs hash compile (bstart ms) pre c -> b_calls c !! n = None ->
  (j < length ms)%nat -> (k < length ms)%nat ->
  lookup (hash (rr_source rq)) (table_of j (messages pre)) = [k] -> lookup (hash (rr_source rq)) (table_of k (messages pre)) = [k] ->
  marshal_read rq = Some b -> takes b -> sized_read rq -> acceptable compile rq -> enum_types (rr_types rq) ->
  exists es x, (exists c0, runs hash compile (start ms) (messages pre ++ [VRead k rq now (ReadOk es)]) c0) /\ marshal_read_response (Some es) = Some x /\
    (takes x -> exists mid c', messages mid = [VRead k rq now (ReadOk es)] /\ no_ask n mid /\
       bruns grow nils addrs hash compile (bstart ms) (pre ++ BAsk n j b :: mid ++ [BGive n (Some x)]) c').
Proof. exact bytes_served. Qed.
Print Assumptions C183_served.

(** Two nodes are given their ranges; the second is sent three envelopes and garbage, passes two on and keeps one; a client asks it for what it passed on,
    while another envelope is sent elsewhere. *)
Definition bytes_of (o : option string) : string := default "" o.
Definition ranges_bytes : string := bytes_of (marshal_table {["n0" := [lower]; "n1" := [upper]]}).
Definition sent_bytes : string := bytes_of (marshal_send (mk_send false (Some [log_at 7 "0"; e_b; log_at 5 "0"]))).
Definition other_bytes : string := bytes_of (marshal_send (mk_send true (Some [e_b]))).
Definition ask_bytes : string := bytes_of (marshal_read ask_a).
Definition before : list btodo :=
  [PTable 0 ranges_bytes; PTable 1 ranges_bytes; PSend 1 sent_bytes; PSend 0 "x"; PPass 0 [log_at 7 "0"; log_at 5 "0"]; PKeep 1 [e_b]].
Definition waiting : list btodo := [PMove 3 100; PSend 1 other_bytes; PMove 3 100; PBack 3].
Definition played_b (ds : list btodo) := bplay true ["n0"; "n1"] toy_hash (fun _ => None) [] (bstart [3; 3]) ds.
Definition pre_b : list bevent :=
  [BTable 0 ranges_bytes split_table; BTable 1 ranges_bytes split_table; BSend 1 sent_bytes; BSend 0 "x"; BPass 0 [log_at 7 "0"; log_at 5 "0"]; BKeep 1 [e_b]].
Definition mid_b : list bevent := [BHop 3; BSend 1 other_bytes; BServe 3 0 ask_a 100 (ReadOk [log_at 5 "0"; log_at 7 "0"]); BBack 3].
Definition answer_bytes : string := bytes_of (marshal_read_response (Some [log_at 5 "0"; log_at 7 "0"])).
Lemma played_before : fst <$> played_b before = Some pre_b /\ (fun r => of_source "a" (c_flight (b_cluster r.2)).*2) <$> played_b before = Some [].
Proof. split; vm_compute; reflexivity. Qed.
Lemma played_all : fst <$> played_b (before ++ PAsk 3 1 ask_bytes :: waiting ++ [PGive 3]) = Some (pre_b ++ BAsk 3 1 ask_bytes :: mid_b ++ [BGive 3 (Some answer_bytes)]).
Proof. vm_compute. reflexivity. Qed.
Lemma pre_messages : messages pre_b = [VTable 0 split_table; VTable 1 split_table; VSend 1 (mk_send false (Some [log_at 7 "0"; e_b; log_at 5 "0"]));
    VArrive 0 [log_at 7 "0"; log_at 5 "0"]; VArrive 1 [e_b]].
Proof. vm_compute. reflexivity. Qed.
Lemma mid_messages : messages mid_b = [VSend 1 (mk_send true (Some [e_b])); VRead 0 ask_a 100 (ReadOk [log_at 5 "0"; log_at 7 "0"])].
Proof. vm_compute. reflexivity. Qed.
Lemma played_runs ds tr : fst <$> played_b ds = Some tr -> exists c, played_b ds = Some (tr, c) /\ bruns id true ["n0"; "n1"] toy_hash (fun _ => None) (bstart [3; 3]) tr c.
Proof.
  destruct (played_b ds) as [[tr' c]|] eqn:E; [|done]. intros [= <-]. exists c. split; [done|].
  exact (bplay_ok id _ _ _ _ _ _ _ _ _ _ (bruns_nil _ _ _ _ _ _) E).
Qed.
Ltac nowhere := repeat (apply not_elem_of_cons; split; [discriminate|]); apply not_elem_of_nil.
Example C183_case : exists pre c0 mid x c,
  bruns id true ["n0"; "n1"] toy_hash (fun _ => None) (bstart [3; 3]) pre c0 /\
  bruns id true ["n0"; "n1"] toy_hash (fun _ => None) (bstart [3; 3]) (pre ++ BAsk 3 1 ask_bytes :: mid ++ [BGive 3 (Some x)]) c /\
  no_ask 3 mid /\ unmarshal_read ask_bytes = Some ask_a /\ steady toy_hash 0 1 "a" pre mid /\ routed toy_hash 0 "a" (messages pre) /\
  (forall m', BRestart 0 m' ∉ pre ++ mid) /\ (forall d pri, BPrune 0 d pri ∉ pre ++ mid) /\
  lost "a" (messages pre) = [] /\ of_source "a" (c_flight (b_cluster c0)).*2 = [] /\ sent_to "a" (messages mid) = [] /\
  distinct_times (sent_to "a" (messages pre)) /\ length (sent_to "a" (messages pre)) = 2%nat /\ messages mid <> [] /\
  unmarshal_read_response x = Some (Some [log_at 5 "0"; log_at 7 "0"]).
Proof.
  destruct played_before as [F0 G0]. destruct (played_runs _ _ F0) as (c0 & E0 & R0). destruct (played_runs _ _ played_all) as (c & E1 & R1).
  rewrite E0 in G0. injection G0 as G0. exists pre_b, c0, mid_b, answer_bytes, c. rewrite mid_messages. split; [exact R0|]. split; [exact R1|].
  split; [intros ? ?; nowhere|]. split; [by vm_compute|]. split.
  { intros j [-> | ->]; rewrite pre_messages; (split; [by vm_compute|]); split; intros; nowhere. }
  rewrite pre_messages. split; [apply routed_b_ok; by vm_compute|]. split; [intros; nowhere|]. split; [intros; nowhere|].
  split; [by vm_compute|]. split; [exact G0|]. split; [by vm_compute|]. split.
  { split; by apply (bool_decide_eq_true_1 _); vm_compute. }
  split; [by vm_compute|]. split; [discriminate|]. by vm_compute.
Qed.
