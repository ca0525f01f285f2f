(** Vocabulary: a message that shows what a query came to, sample by sample and series by series. *)
From Coq Require Import Ascii String.
From stdpp Require Import prelude strings list gmap.
From Verif.Query Require Model.
From Verif.Marshaler Require Import Model Spec.

Section Spec.
Context (L : lib) (of_bits : Z -> flt L).
(** a point: its time and its value *)
Inductive shows_point (p : Query.Model.ppoint) : option (point L) -> Prop :=
| a_shown_point : shows_point p (Some (Point (Query.Model.pp_time p) (of_bits (Query.Model.pp_value p)))).
(** a sample: its labels, and its point *)
Inductive shows_sample (ls : gmap string string) (p : Query.Model.ppoint) : option (sample L) -> Prop :=
| a_shown_sample m x : labels m = ls -> shows_point p x -> shows_sample ls p (Some (Sample m x)).
(** a series: its labels, and its points in order *)
Inductive shows_series (ls : gmap string string) (ps : list Query.Model.ppoint) : option (series L) -> Prop :=
| a_shown_series m xs : labels m = ls -> Forall2 shows_point ps xs -> shows_series ls ps (Some (Series m xs)).
Inductive shows : Query.Model.result -> result L -> Prop :=
| shows_scalar t v : shows (Query.Model.RScalar t v) (RScalar (Some (Point t (of_bits v))))
| shows_vector ss l : Forall2 (fun s => shows_sample s.1 s.2) ss l -> shows (Query.Model.RVector ss) (RVector (Some l))
| shows_matrix ss l : Forall2 (fun s => shows_series s.1 s.2) ss l -> shows (Query.Model.RMatrix ss) (RMatrix (Some l)).
End Spec.
