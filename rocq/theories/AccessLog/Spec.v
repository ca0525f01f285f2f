(** Vocabulary for the access log. *)
From Coq Require Import Ascii String.
From stdpp Require Import prelude strings list.
Open Scope string_scope.
Open Scope nat_scope.

(** how often a byte occurs *)
Fixpoint count (c : ascii) (s : string) : nat :=
  match s with
  | EmptyString => 0
  | String d s => (if decide (c = d) then 1 else 0) + count c s
  end.
(** lines in a text: newlines *)
Definition lines (s : string) : nat := count (ascii_of_nat 10) s.

(** an address as HTTP writes it: a name or IPv4 address, with or without a port, or a bracketed IPv6
    address with a port; [host] and [port] are what it consists of *)
Inductive address : string -> string -> string -> Prop :=
| addr_host host : count ":" host = 0 -> count "[" host = 0 -> count "]" host = 0 ->
    address host host ""
| addr_port host port : count ":" host = 0 -> count "[" host = 0 -> count "]" host = 0 ->
    count ":" port = 0 -> count "[" port = 0 -> count "]" port = 0 ->
    address (append host (String ":" port)) host port
| addr_six host port : count "[" host = 0 -> count "]" host = 0 ->
    count ":" port = 0 -> count "[" port = 0 -> count "]" port = 0 ->
    address (String "[" (append host (append "]:" port))) host port.

(** A record [text] has the field name=value: after a space, up to a space or the end of the line *)
Definition field (text name value : string) : Prop :=
  exists before sep after, (sep = " "%char \/ sep = ascii_of_nat 10) /\
    count " " value = 0 /\ lines value = 0 /\
    text = append before (append " " (append name (append "=" (append value (String sep after))))).

(** [t] is HTML for the text [v] *)
Inductive stands_for : string -> string -> Prop :=
| sf_nil : stands_for "" ""
| sf_char c t v : c ∉ ["&"; "<"; ">"; "'"; "+"; ascii_of_nat 34; ascii_of_nat 0]%char ->
    stands_for t v -> stands_for (String c t) (String c v)
| sf_name name c t v :
    (name, c) ∈ [("amp", "&"%char); ("lt", "<"%char); ("gt", ">"%char); ("#39", "'"%char); ("#43", "+"%char);
                  ("#34", ascii_of_nat 34)] ->
    stands_for t v -> stands_for (append "&" (append name (append ";" t))) (String c v).
