(** The answers to PromQL queries in the wire format: api/v1/promql.proto with the field numbers of the struct tags in
    pkg/rpc/logcache_v1/promql.pb.go.  The messages are those of Marshaler/Model.v; reading and writing are those of
    Wire/Model.v.  A double travels as its 64 bits. *)
From Coq Require Import Ascii String.
From stdpp Require Import prelude strings list gmap.
From Verif.Query Require Model.
From Verif.Marshaler Require Import Model.
From Verif.Wire Require Import Format Model.
Open Scope string_scope.
Open Scope list_scope.
Open Scope Z_scope.

Section Results.
Context (L : lib).
(** math.Float64bits and math.Float64frombits *)
Context (bits : flt L -> Z) (of_bits : Z -> flt L).

(** promql.pb.go:455-461 PromQL_Scalar and :539-545 PromQL_Point { string time = 1; double value = 2; } *)
Definition enc_point (p : point L) : list field := put_text 1 (p_time p) ++ put_double 2 (bits (p_value p)).
Definition no_point : point L := Point "" (of_bits 0).
Definition point_step : reader (point L) := fun p '(k, w) =>
  if k =? 1 then get_text w p (fun t => Point t (p_value p))
  else if k =? 2 then match w with Fixed64 f => Some (Point (p_time p) (of_bits f)) | _ => Some p end
  else Some p.

(** promql.pb.go:585-591 PromQL_Sample { map<string, string> metric = 1; Point point = 2; } *)
Definition enc_sample (s : sample L) : list field :=
  put_map 1 Bytes (default ∅ (s_metric s)) ++ match s_point s with Some p => put_msg 2 (enc_point p) | None => [] end.
Definition sample_step : reader (sample L) := fun s '(k, w) =>
  if k =? 1 then get_entry get_text_value "" w (default ∅ (s_metric s)) s (fun m => Sample (Some m) (s_point s))
  else if k =? 2 then get_msg point_step (default no_point (s_point s)) w s (fun p => Sample (s_metric s) (Some p))
  else Some s.

(** table_marshal.go makeMessageSliceMarshaler: a nil element is an error (errRepeatedHasNil) *)
Definition put_list {A} (k : Z) (f : A -> option (list field)) (l : list (option A)) : option (list field) :=
  fss ← mapM (fun x : option A => x ≫= f) l; Some (fss ≫= put_msg k).

(** promql.pb.go:669-675 PromQL_Series { map<string, string> metric = 1; repeated Point points = 2; } *)
Definition enc_series (s : series L) : option (list field) :=
  ps ← put_list 2 (fun p => Some (enc_point p)) (r_points s);
  Some (put_map 1 Bytes (default ∅ (r_metric s)) ++ ps).
Definition series_step : reader (series L) := fun s '(k, w) =>
  if k =? 1 then get_entry get_text_value "" w (default ∅ (r_metric s)) s (fun m => Series (Some m) (r_points s))
  else if k =? 2 then get_msg point_step no_point w s (fun p => Series (r_metric s) (r_points s ++ [Some p]))
  else Some s.

(** promql.pb.go:501-506 PromQL_Vector { repeated Sample samples = 1; }, :631-636 PromQL_Matrix { repeated Series series = 1; } *)
Definition enc_vector (v : list (option (sample L))) : option (list field) := put_list 1 (fun s => Some (enc_sample s)) v.
Definition vector_step : reader (list (option (sample L))) := fun v '(k, w) =>
  if k =? 1 then get_msg sample_step (Sample None None) w v (fun s => v ++ [Some s]) else Some v.
Definition enc_matrix (m : list (option (series L))) : option (list field) := put_list 1 enc_series m.
Definition matrix_step : reader (list (option (series L))) := fun m '(k, w) =>
  if k =? 1 then get_msg series_step (Series None []) w m (fun s => m ++ [Some s]) else Some m.

(** promql.pb.go:204-214 PromQL_InstantQueryResult { oneof Result { Scalar scalar = 1; Vector vector = 2; Matrix matrix = 3; } }.
    makeMessageMarshaler writes nothing for a nil pointer. *)
Definition put_member {A} (k : Z) (f : A -> option (list field)) (x : option A) : option (list field) :=
  match x with Some x => fs ← f x; Some (put_msg k fs) | None => Some [] end.
Definition enc_result (r : query_result L) : option (list field) :=
  match r with
  | None => Some []
  | Some (RScalar p) => put_member 1 (fun p => Some (enc_point p)) p
  | Some (RVector v) => put_member 2 enc_vector v
  | Some (RMatrix m) => put_member 3 enc_matrix m
  end.
Definition result_step : reader (query_result L) := fun r '(k, w) =>
  if k =? 1 then get_msg point_step no_point w r (fun p => Some (RScalar (Some p)))
  else if k =? 2 then get_msg vector_step [] w r (fun v => Some (RVector (Some v)))
  else if k =? 3 then get_msg matrix_step [] w r (fun m => Some (RMatrix (Some m)))
  else Some r.
(** promql.pb.go:380-382 PromQL_RangeQueryResult { oneof Result { Matrix matrix = 1; } } *)
Definition enc_range_result (m : option (list (option (series L)))) : option (list field) := put_member 1 enc_matrix m.
Definition range_result_step : reader (query_result L) := fun r '(k, w) =>
  if k =? 1 then get_msg matrix_step [] w r (fun m => Some (RMatrix (Some m))) else Some r.

(** The messages that promql.go:105-179 and 229-265 make: Query/Model.v gives what they hold *)
Definition point_of (p : Query.Model.ppoint) : point L := Point (Query.Model.pp_time p) (of_bits (Query.Model.pp_value p)).
Definition message_of (r : Query.Model.result) : result L :=
  match r with
  | Query.Model.RScalar t v => RScalar (Some (Point t (of_bits v)))
  | Query.Model.RVector ss => RVector (Some ((fun s => Some (Sample (Some s.1) (Some (point_of s.2)))) <$> ss))
  | Query.Model.RMatrix ss => RMatrix (Some ((fun s => Some (Series (Some s.1) ((fun p => Some (point_of p)) <$> s.2))) <$> ss))
  end.

(** the fields of type string *)
Definition point_texts (p : option (point L)) : list string := match p with Some p => [p_time p] | None => [] end.
Definition sample_texts (s : option (sample L)) : list string :=
  map_texts (default ∅ (s ≫= s_metric)) ++ point_texts (s ≫= s_point).
Definition series_texts (s : option (series L)) : list string :=
  map_texts (default ∅ (s ≫= r_metric)) ++ (from_option r_points [] s ≫= point_texts).
Definition result_texts (r : query_result L) : list string :=
  match r with
  | None => []
  | Some (RScalar p) => point_texts p
  | Some (RVector v) => default [] v ≫= sample_texts
  | Some (RMatrix m) => default [] m ≫= series_texts
  end.
Definition marshal_result (r : query_result L) : option string := fs ← enc_result r; marshal (result_texts r) fs.
Definition unmarshal_result (s : string) : option (query_result L) := merge result_step None s.
(** a range query's result that is a matrix *)
Definition marshal_range_result (m : option (list (option (series L)))) : option string :=
  fs ← enc_range_result m; marshal (result_texts (Some (RMatrix m))) fs.
Definition unmarshal_range_result (s : string) : option (query_result L) := merge range_result_step None s.
End Results.
