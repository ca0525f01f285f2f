(** Vocabulary: what an answer to a query holds, and when two answers are the same. *)
From Coq Require Import Ascii String.
From stdpp Require Import prelude strings list gmap.
From Verif.Json Require Import Spec SpecPb.
From Verif.Marshaler Require Import Model Spec.
Open Scope Z_scope.

Section Spec.
Context (L : lib).
(** A double and its 64 bits *)
Definition float_bits (bits : flt L -> Z) (of_bits : Z -> flt L) : Prop :=
  forall f, of_bits (bits f) = f /\ uint64 (bits f).

(** No pointer in the answer is nil.  (promql.go:105-179, 229-265 allocate every message they return.) *)
Definition whole (r : result L) : Prop :=
  match r with
  | RScalar p => exists x, p = Some x
  | RVector v => exists l, v = Some l /\ forall s, s ∈ l -> exists m p, s = Some (Sample m (Some p))
  | RMatrix m => exists l, m = Some l /\ forall s, s ∈ l -> exists m ps, s = Some (Series m ps) /\ forall p, p ∈ ps -> exists x, p = Some x
  end.

(** The same points, with the same labels: in Go, a map that is nil and one that is empty hold the same. *)
Inductive equal_sample : option (sample L) -> option (sample L) -> Prop :=
| eq_sample m m' p : labels m = labels m' -> equal_sample (Some (Sample m p)) (Some (Sample m' p)).
Inductive equal_series : option (series L) -> option (series L) -> Prop :=
| eq_series m m' ps : labels m = labels m' -> equal_series (Some (Series m ps)) (Some (Series m' ps)).
Inductive equal_result : result L -> result L -> Prop :=
| eq_scalar p : equal_result (RScalar p) (RScalar p)
| eq_vector v v' : Forall2 equal_sample v v' -> equal_result (RVector (Some v)) (RVector (Some v'))
| eq_matrix m m' : Forall2 equal_series m m' -> equal_result (RMatrix (Some m)) (RMatrix (Some m')).

(** the texts of an answer: the times, and the names and values of the labels *)
Inductive label_text (m : option (gmap string string)) : string -> Prop :=
| in_label k v t : labels m !! k = Some v -> t = k \/ t = v -> label_text m t.
Inductive result_text : result L -> string -> Prop :=
| in_scalar t v : result_text (RScalar (Some (Point t v))) t
| in_sample_time l m t v : Some (Sample m (Some (Point t v))) ∈ l -> result_text (RVector (Some l)) t
| in_sample_label l m p t : Some (Sample m p) ∈ l -> label_text m t -> result_text (RVector (Some l)) t
| in_series_time l m ps t v : Some (Series m ps) ∈ l -> Some (Point t v) ∈ ps -> result_text (RMatrix (Some l)) t
| in_series_label l m ps t : Some (Series m ps) ∈ l -> label_text m t -> result_text (RMatrix (Some l)) t.
End Spec.
