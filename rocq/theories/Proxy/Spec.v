(** Vocabulary of the proxy's log. *)
From Coq Require Import Ascii String.
From stdpp Require Import prelude strings list.
From Verif.AccessLog Require Import Spec Model.
From Verif.Proxy Require Import Model.
Open Scope string_scope.
Open Scope list_scope.

(** Those of the requests that came past the access log, as the log sees them *)
Definition passed_on (rs : list (preq * option nat)) : list areq :=
  omap (fun y => match y.2 with Some _ => Some (p_log y.1) | None => None end) rs.

(** Texts, one after the other *)
Definition concat_text (l : list string) : string := foldr append "" l.

(** net/http accepts no newline in a method, a raw query or a header *)
Definition clean_headers (r : areq) (host port : string) : Prop :=
  Forall (fun s => lines s = 0%nat) [a_query r; a_method r; a_id r; a_forwarded r; a_remote r; host; port].
Definition one_line (r : areq) (host port : string) : Prop := clean_headers r host port /\ lines (a_path r) = 0%nat.

(** Text that ends where a line ends *)
Definition whole_lines (s : string) : Prop := s = "" \/ exists s', s = append s' (String (ascii_of_nat 10) "").
