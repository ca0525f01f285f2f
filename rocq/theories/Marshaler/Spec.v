(** When two query results say the same. *)
From Coq Require Import String.
From stdpp Require Import prelude gmap strings.
From Verif.Marshaler Require Import Model.
Open Scope string_scope.
Open Scope list_scope.

(** What strconv documents of its functions: the shortest format is exact; three
    decimals, read back, print the same three decimals. *)
Definition exact_short (L : lib) : Prop := forall v, parse_float L (fmt_short L v) = Some v.
Definition stable3 (L : lib) : Prop := forall t, finite L t = true ->
  exists t', parse_float L (fmt3 L t) = Some t' /\ fmt3 L t' = fmt3 L t.

Section Spec.
Context (L : lib).

(** The same point, its time written with three decimals. *)
Inductive same_point : option (point L) -> option (point L) -> Prop :=
  | same_point_intro time t v :
      parse_float L time = Some t -> finite L t = true ->
      same_point (Some (Point time v)) (Some (Point (fmt3 L t) v)).

(** A nil map says the same as an empty one. *)
Definition labels (m : option (gmap string string)) : gmap string string := default ∅ m.

Inductive same_sample : option (sample L) -> option (sample L) -> Prop :=
  | same_sample_intro m m' p p' :
      labels m = labels m' -> same_point p p' ->
      same_sample (Some (Sample m p)) (Some (Sample m' p')).

(** A nil series says the same as one without labels and points. *)
Inductive same_series : option (series L) -> option (series L) -> Prop :=
  | same_series_intro m m' ps ps' :
      labels m = labels m' -> Forall2 same_point ps ps' ->
      same_series (Some (Series m ps)) (Some (Series m' ps'))
  | same_series_nil m' : labels m' = ∅ -> same_series None (Some (Series m' [])).

Inductive same_result : result L -> result L -> Prop :=
  | same_scalar p p' : same_point p p' -> same_result (RScalar p) (RScalar p')
  | same_vector v v' : Forall2 same_sample (default [] v) (default [] v') ->
      same_result (RVector v) (RVector v')
  | same_matrix v v' : Forall2 same_series (default [] v) (default [] v') ->
      same_result (RMatrix v) (RMatrix v').

(** A result that can be written: every point and sample is there and has a
    finite time. *)
Definition good_point (p : option (point L)) : Prop :=
  exists time v t, p = Some (Point time v) /\ parse_float L time = Some t /\ finite L t = true.
Definition good_result (r : result L) : Prop :=
  match r with
  | RScalar p => good_point p
  | RVector v => forall s, s ∈ default [] v -> good_point (s ≫= s_point)
  | RMatrix m => forall s p, s ∈ default [] m -> p ∈ from_option r_points [] s -> good_point p
  end.

(** No label contains invalid UTF-8. *)
Definition clean_map (m : option (gmap string string)) : Prop :=
  forall k v, labels m !! k = Some v -> clean L k = k /\ clean L v = v.
Definition clean_result (r : result L) : Prop :=
  match r with
  | RScalar _ => True
  | RVector v => forall s, s ∈ default [] v -> clean_map (s ≫= s_metric)
  | RMatrix m => forall s, s ∈ default [] m -> clean_map (s ≫= r_metric)
  end.
End Spec.
