(** Vocabulary for the properties of the gateway and of the client's read options. *)
From Coq Require Import Ascii String.
From stdpp Require Import prelude strings gmap list.
From Verif.Base Require Import Envelope Dec.
From Verif.Routing Require Import Model.
From Verif.Gateway Require Import Model.
Open Scope string_scope.
Open Scope list_scope.
Open Scope Z_scope.

(** A query parameter called [k] is a spelling of the name [n]: [n] itself, or n[...]. *)
Definition spells (k n : string) : Prop := k = n \/ exists x, k = append n (append "[" (append x "]")).

(** The documented parameters of a read. *)
Definition documented : list string :=
  ["source_id"; "start_time"; "end_time"; "limit"; "envelope_types"; "descending"; "name_filter"].

(** The request a caller of the client asks for: of repeated options the last counts, envelope types
    add up. *)
Definition last_end (opts : list option_) : Z :=
  default 0 (last (omap (fun o => match o with WithEndTime t => Some t | _ => None end) opts)).
Definition last_limit (opts : list option_) : Z :=
  default 0 (last (omap (fun o => match o with WithLimit n => Some n | _ => None end) opts)).
Definition last_name (opts : list option_) : string :=
  default "" (last (omap (fun o => match o with WithNameFilter s => Some s | _ => None end) opts)).
Definition all_types (opts : list option_) : list etype :=
  concat (omap (fun o => match o with WithEnvelopeTypes ts => Some ts | _ => None end) opts).
Definition asked (source : string) (start : Z) (opts : list option_) : read_request :=
  mk_rr source start (last_end opts) (last_limit opts) (all_types opts)
        (existsb (fun o => match o with WithDescending => true | _ => false end) opts) (last_name opts).

(** The numbers among the options are int64s; Go's types say so. *)
Definition option_in64 (o : option_) : Prop :=
  match o with WithEndTime t => - 2^63 <= t < 2^63 | WithLimit n => - 2^63 <= n < 2^63 | _ => True end.
(** The envelope types are among those the API defines. *)
Definition known_types (o : option_) : Prop :=
  match o with WithEnvelopeTypes ts => Forall (fun t => forall n, t <> T_UNKNOWN n) ts | _ => True end.

(** A source id which a path can carry: its parts between slashes are not empty, "." or "..", and the
    last has no colon. *)
Inductive carried : string -> Prop :=
| carried_last w : w <> "" -> w <> "." -> w <> ".." ->
    (forall a b, w <> append a (append "/" b)) -> (forall a b, w <> append a (append ":" b)) -> carried w
| carried_more w s : w <> "" -> w <> "." -> w <> ".." ->
    (forall a b, w <> append a (append "/" b)) -> carried s -> carried (append w (append "/" s)).

(** A number with a superfluous leading zero *)
Definition zero_led (s : string) : Prop :=
  exists sign s', sign ∈ [""; "+"; "-"] /\ s = append sign (String "0" s') /\ s' <> "".

(** What the documented parameters of a read say.  [v] are the parameters, each with its values. *)
Definition int_given (v : gmap string (list string)) (k : string) (n : Z) : Prop :=
  match v !! k with
  | None => n = 0
  | Some vs => exists x rest, vs = x :: rest /\ signed_numeral x n /\ - 2^63 <= n < 2^63
  end.
Definition bool_given (v : gmap string (list string)) (k : string) (b : bool) : Prop :=
  match v !! k with
  | None => b = false
  | Some vs => exists x rest, vs = x :: rest /\
      (b = true /\ x ∈ ["1"; "t"; "T"; "TRUE"; "true"; "True"] \/
       b = false /\ x ∈ ["0"; "f"; "F"; "FALSE"; "false"; "False"])
  end.
Definition text_given (v : gmap string (list string)) (k x : string) : Prop :=
  match v !! k with None => x = "" | Some vs => exists rest, vs = x :: rest end.
(** The API's envelope types, by name and number *)
Definition api_types : list (string * Z * etype) :=
  [("ANY", 0, T_ANY); ("LOG", 1, T_LOG); ("COUNTER", 2, T_COUNTER); ("GAUGE", 3, T_GAUGE); ("TIMER", 4, T_TIMER);
   ("EVENT", 5, T_EVENT)].
Definition type_text (x : string) (t : etype) : Prop :=
  exists name n, (name, n, t) ∈ api_types /\ (x = name \/ signed_numeral x n).
Definition types_given (v : gmap string (list string)) (k : string) (ts : list etype) : Prop :=
  match v !! k with None => ts = [] | Some vs => Forall2 type_text vs ts end.
Definition read_says (v : gmap string (list string)) (id : string) (r : read_request) : Prop :=
  rr_source r = id /\ int_given v "start_time" (rr_start r) /\ int_given v "end_time" (rr_end r) /\
  int_given v "limit" (rr_limit r) /\ types_given v "envelope_types" (rr_types r) /\
  bool_given v "descending" (rr_desc r) /\ text_given v "name_filter" (rr_name r).

(** The PromQL text the backend is asked for *)
Definition query_text (o : served) : option string :=
  match o with AskInstant r => Some (iq_query r) | AskRange r => Some (rg_query r) | _ => None end.
