(** Vocabulary of the PromQL properties. *)
From Coq Require Import Ascii String.
From stdpp Require Import prelude gmap strings list.
From Coq Require Import Sorted.
From Verif.Base Require Import GoInt Envelope Str.
From Verif.Promql Require Import Model.
Open Scope Z_scope.

(** ** Names *)
Definition letter (c : ascii) : Prop := (65 <= nat_of_ascii c <= 90 ∨ 97 <= nat_of_ascii c <= 122)%nat.
Definition digit (c : ascii) : Prop := (48 <= nat_of_ascii c <= 57)%nat.
Inductive chars_ok (P : ascii -> Prop) : string -> Prop :=
| chars_nil : chars_ok P EmptyString
| chars_cons c s : P c -> chars_ok P s -> chars_ok P (String c s).
(** Letters, digits and underscores, no digit first *)
Definition identifier (s : string) : Prop :=
  chars_ok (fun c => letter c ∨ digit c ∨ c = "_"%char) s ∧
  match s with EmptyString => True | String c _ => ¬ digit c end.

(** ** What Prometheus means by a matcher: the label's value, the empty string if it is absent;
    [re pattern value] is regular expression matching. *)
Definition label_value (labels : gmap string string) (name : string) : string :=
  default EmptyString (labels !! name).
Definition satisfies (re : string -> string -> Prop) (labels : gmap string string) (m : matcher) : Prop :=
  match lm_type m with
  | MatchEqual => label_value labels (lm_name m) = lm_value m
  | MatchNotEqual => label_value labels (lm_name m) ≠ lm_value m
  | MatchRegexp => re (lm_value m) (label_value labels (lm_name m))
  | MatchNotRegexp => ¬ re (lm_value m) (label_value labels (lm_name m))
  end.

(** The selectors in an expression. *)
Inductive selector_of : expr -> list matcher -> Prop :=
| sel_here b i ms : selector_of (ESelector b i ms) ms
| sel_below i cs e ms : e ∈ cs -> selector_of e ms -> selector_of (ENode i cs) ms.

(** A selector asks for a source id: by equality, or as one of the alternatives of a regexp *)
Inductive alternative : string -> string -> Prop :=
| alt_split pattern id ids : pattern = join "|" ids -> Forall (fun x => has_char "|" x = false) ids -> id ∈ ids ->
    alternative pattern id.
Definition asks (ms : list matcher) (id : string) : Prop :=
  ∃ m, m ∈ ms ∧ lm_name m = "source_id" ∧
    ((lm_type m = MatchEqual ∧ lm_value m = id) ∨ (lm_type m = MatchRegexp ∧ alternative (lm_value m) id)).

(** Go's map iteration: each element once, in any order *)
Definition iterates (order : gmap string gauge_value -> list (string * gauge_value)) : Prop :=
  ∀ m, order m ≡ₚ map_to_list m.
Definition iterates_ids (oids : gset string -> list string) : Prop := ∀ x, oids x ≡ₚ elements x.

(** A sample an envelope offers for a metric: a counter or timer of that (sanitised) name, or one of a
    gauge's values of that name *)
Inductive offers (metric : string) : message -> sample -> Prop :=
| off_counter n d t : sanitize n = metric -> offers metric (MCounter n d t) (FromCounter t)
| off_timer n a b : sanitize n = metric -> offers metric (MTimer n a b) (FromTimer (wrap64 (b - a)))
| off_gauge ms n v : ms !! n = Some v -> sanitize n = metric -> offers metric (MGauge ms) (FromGauge (gv_value v)).

(** The labels of an envelope's samples: its tags, its source id and, if it has one, its instance id *)
Definition labels_of (e : envelope) (l : gmap string string) : Prop :=
  l !! "source_id" = Some (e_source e) ∧
  l !! "instance_id" = (if bool_decide (e_instance e = "") then e_tags e !! "instance_id" else Some (e_instance e)) ∧
  ∀ k, k ≠ "source_id" -> k ≠ "instance_id" -> l !! k = e_tags e !! k.

(** A sample's time in milliseconds: the envelope's, rounded down to a whole second *)
Definition whole_second_before (ms ts : Z) : Prop :=
  ms mod 1000 = 0 ∧ ms * 1000000 <= ts < ms * 1000000 + 1000000000.

(** The point p is a sample of envelope e, with labels l, for the metric *)
Definition sample_of (metric : string) (e : envelope) (l : gmap string string) (p : point) : Prop :=
  labels_of e l ∧ offers metric (e_msg e) (p_v p) ∧ whole_second_before (p_t p) (e_ts e).

(** A selector the engine serves faithfully: one metric name and one source id matcher, both positive,
    the latter's regexp being understood as a list of alternatives; all other matchers are equalities on
    labels other than instance_id. *)
Record plain_selector (re : string -> string -> Prop) (metric : string) (ms : list matcher) : Prop := {
  ps_name : ∀ m, m ∈ ms -> lm_name m = "__name__" -> lm_type m = MatchEqual ∧ lm_value m = metric;
  ps_named : ∃ m, m ∈ ms ∧ lm_name m = "__name__";
  ps_source : ∀ m m', m ∈ ms -> m' ∈ ms -> lm_name m = "source_id" -> lm_name m' = "source_id" -> m = m';
  ps_re : ∀ m, m ∈ ms -> lm_name m = "source_id" -> lm_type m = MatchRegexp ->
            ∀ v, re (lm_value m) v ↔ alternative (lm_value m) v;
  ps_rest : ∀ m, m ∈ ms -> lm_name m ≠ "__name__" -> lm_name m ≠ "source_id" ->
            lm_type m = MatchEqual ∧ lm_name m ≠ "instance_id"
}.

(** ** Series *)
Notation sample_in := (gmap string string * point)%type.
Definition points_of (l : gmap string string) (samples : list sample_in) : list point :=
  (filter (fun s => s.1 = l) samples).*2.

(** Label sets whose textual keys cannot be confused: label names are free of dashes, and apart from its
    first dash-separated part no label value has a part which is a label name in use. *)
Definition clear_labels (names : gset string) (l : gmap string string) : Prop :=
  ∀ k v, l !! k = Some v -> k ∈ names ∧ has_char "-" k = false ∧
    ∀ w, w ∈ tail (split "-" v) -> w ∉ names.

Definition times_sorted (ps : list point) : Prop := StronglySorted (fun a b => p_t a <= p_t b) ps.

(** Iterating: the points a series iterator shows when Next is called until it reports the end *)
Fixpoint drain (n : nat) (it : iter) : list (option point) :=
  match n with
  | O => []
  | S n' => let '(it', more) := next it in if (more : bool) then at_ it' :: drain n' it' else []
  end.
