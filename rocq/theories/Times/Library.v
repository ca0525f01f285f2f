(** The parsers of internal/promql/parsing.go with the concrete texts of Times/Texts.v; numbers stay with strconv.ParseFloat. *)
From Coq Require Import Ascii String.
From Verif.Prune Require Import Model.
From Verif.Times Require Import Model Texts.
Definition with_texts (pf : string -> option f64) : parsers :=
  {| parse_float := pf; parse_duration := duration_text; parse_rfc3339 := rfc3339_text |}.
