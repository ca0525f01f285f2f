(** Vocabulary of the syslog properties. *)
From Coq Require Import Ascii String.
From stdpp Require Import prelude gmap strings list.
From Verif.Base Require Import GoInt Envelope Str Dec.
From Verif.Syslog Require Import Model.
Open Scope Z_scope.

(** A process id "[type/.../instance]": brackets around, slashes between; with no slash the two coincide *)
Definition bare (s : string) : Prop := has_char "/" s = false.
Inductive brackets : string -> Prop :=
| br_nil : brackets EmptyString
| br_open s : brackets s -> brackets (String "[" s)
| br_close s : brackets s -> brackets (String "]" s).
Definition no_bracket_at_ends (s : string) : Prop :=
  (∀ s', s ≠ String "[" s' ∧ s ≠ String "]" s') ∧
  (∀ s', s ≠ append s' "[" ∧ s ≠ append s' "]").
Definition process_id (pid source_type instance : string) : Prop :=
  ∃ l r core, pid = append l (append core r) ∧ brackets l ∧ brackets r ∧ no_bracket_at_ends core ∧ bare source_type ∧ bare instance ∧
    ((core = source_type ∧ instance = source_type) ∨
     (∃ rest, core = append source_type (append "/" (append rest instance)) ∧
              (rest = EmptyString ∨ ∃ r', rest = append r' "/"))).

(** The Unicode space characters, in UTF-8: tab to carriage return, space, U+0085, U+00A0, U+1680,
    U+2000 to U+200A, U+2028, U+2029, U+202F, U+205F, U+3000 *)
Fixpoint of_bytes (l : list nat) : string :=
  match l with [] => EmptyString | n :: l' => String (ascii_of_nat n) (of_bytes l') end.
Definition space_runes : list string :=
  of_bytes <$> [[9]; [10]; [11]; [12]; [13]; [32]; [194; 133]; [194; 160]; [225; 154; 128];
    [226; 128; 128]; [226; 128; 129]; [226; 128; 130]; [226; 128; 131]; [226; 128; 132]; [226; 128; 133];
    [226; 128; 134]; [226; 128; 135]; [226; 128; 136]; [226; 128; 137]; [226; 128; 138];
    [226; 128; 168]; [226; 128; 169]; [226; 128; 175]; [226; 129; 159]; [227; 128; 128]]%nat.
Inductive spaces : string -> Prop :=
| sp_nil : spaces EmptyString
| sp_cons w s : w ∈ space_runes -> spaces s -> spaces (append w s).
(** [payload] is [text] without the space characters around it *)
Definition trimmed (text payload : string) : Prop :=
  (∃ l r, text = append l (append payload r) ∧ spaces l ∧ spaces r) ∧
  (∀ w s, w ∈ space_runes -> payload ≠ append w s ∧ payload ≠ append s w).

(** What a structured data element of a known kind says *)
Inductive says (parse_float : string -> option f64) (m : gmap string string) : string -> message -> Prop :=
| says_counter suffix d t :
    numeral (param m "delta") d -> d < 2^64 -> numeral (param m "total") t -> t < 2^64 ->
    says parse_float m (append "counter" suffix) (MCounter (param m "name") d t)
| says_gauge suffix u v : m !! "unit" = Some u -> parse_float (param m "value") = Some v ->
    says parse_float m (append "gauge" suffix) (MGauge {[param m "name" := mk_gv u v]})
| says_event suffix : says parse_float m (append "event" suffix) (MEvent (param m "title") (param m "body"))
| says_timer suffix a b : signed_numeral (param m "start") a -> in64 a -> signed_numeral (param m "stop") b -> in64 b ->
    says parse_float m (append "timer" suffix) (MTimer (param m "name") a b).

(** The envelope e says what the message says: app name, time, instance; a structured data element if there
    is one, otherwise the text without surrounding white space, as an error if the priority is 11 *)
Definition no_data (msg : smessage) : Prop := sm_data msg = None ∨ sm_data msg = Some ∅.
Inductive means (parse_float : string -> option f64) (msg : smessage) (e : envelope) : Prop :=
| means_log pid app t text payload p ty inst :
    sm_proc msg = Some pid -> sm_app msg = Some app -> sm_time msg = Some t -> sm_text msg = Some text -> sm_priority msg = Some p ->
    no_data msg -> process_id pid ty inst -> trimmed text payload ->
    e = mk_env (wrap64 t) app inst ∅ {["source_type" := ty]} (MLog payload (bool_decide (p = 11))) ->
    means parse_float msg e
| means_data pid app t ty inst d kind m body :
    sm_proc msg = Some pid -> sm_app msg = Some app -> sm_time msg = Some t ->
    sm_data msg = Some d -> d !! kind = Some m -> says parse_float m kind body -> process_id pid ty inst ->
    e = mk_env (wrap64 t) app inst ∅ ∅ body ->
    means parse_float msg e.

(** Iteration order of Go maps. *)
Definition any_order (order : gmap string (gmap string string) -> list (string * gmap string string)) : Prop :=
  ∀ d, order d ≡ₚ map_to_list d.

(** The fields without which the server falls over: process id, app name, time and, when there is no
    structured data, text (a parsed message always has a priority). *)
Definition complete (msg : smessage) : Prop :=
  is_Some (sm_proc msg) ∧ is_Some (sm_app msg) ∧ is_Some (sm_time msg) ∧
  (no_data msg -> is_Some (sm_text msg) ∧ is_Some (sm_priority msg)).

(** A message the server must reject: its structured data has an element that says nothing it knows. *)
Definition unusable (parse_float : string -> option f64) (msg : smessage) : Prop :=
  ∃ d kind m, sm_data msg = Some d ∧ d !! kind = Some m ∧ ∀ body, ¬ says parse_float m kind body.
