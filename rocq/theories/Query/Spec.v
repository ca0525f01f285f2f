(** Vocabulary of the properties of whole queries. *)
From Coq Require Import Ascii String.
From stdpp Require Import prelude gmap strings list.
From Verif.Base Require Import GoInt Envelope.
From Verif.Promql Require Import Model Spec.
From Verif.Query Require Import Model.
Open Scope Z_scope.

(** Go's iteration over the map of series *)
Definition iterates_series (oser : gmap string series -> list series) : Prop :=
  ∀ b, oser b ≡ₚ (map_to_list b).*2.

(** The query came to grief: a read failed, or a selector named no source. *)
Definition failed_read (evs : list event) (e : string) : Prop := ∃ r, EvRead r (Some e) ∈ evs.
Definition sourceless (evs : list event) (ms : list matcher) : Prop :=
  ∃ a b, EvSelect a b ms ∈ evs ∧ ∀ id, ¬ asks ms id.
Definition trouble (evs : list event) : Prop := (∃ e, failed_read evs e) ∨ (∃ ms, sourceless evs ms).

(** [returns eng r]: r is among the things the evaluation may return in the end. *)
Inductive returns : engine -> value + string -> Prop :=
| ret_done r : returns (Return r) r
| ret_select a b ms k x r : returns (k x) r -> returns (CallSelect a b ms k) r.

(** The evaluation selects only with matchers in [ok], whatever the answers. *)
Inductive selects_only (ok : list matcher -> Prop) : engine -> Prop :=
| only_done r : selects_only ok (Return r)
| only_select a b ms k : ok ms -> (∀ x, selects_only ok (k x)) -> selects_only ok (CallSelect a b ms k).

Definition is_read (ev : event) : Prop := match ev with EvRead _ _ => True | EvSelect _ _ _ => False end.
Definition sources (evs : list event) : list string :=
  omap (fun ev => match ev with EvRead r _ => Some (dr_source r) | EvSelect _ _ _ => None end) evs.

(** [block evs a b ms reads]: somewhere in evs there is a selection, and reads are
    all the reads made for it. *)
Definition block (evs : list event) (a b : Z) (ms : list matcher) (reads : list event) : Prop :=
  ∃ pre post, evs = pre ++ EvSelect a b ms :: reads ++ post ∧ Forall is_read reads ∧
    match post with [] => True | ev :: _ => ¬ is_read ev end.

(** The labels of an answer are those the engine gave (names occur once there). *)
Definition same_labels (ls : list (string * string)) (m : gmap string string) : Prop :=
  NoDup ls.*1 -> ∀ k v, m !! k = Some v ↔ (k, v) ∈ ls.
(** [carries time v r]: the answer r says what the value v says; [time] relates a
    text to milliseconds. *)
Definition same_point (time : string -> Z -> Prop) (p : Z * f64) (q : ppoint) : Prop :=
  time (pp_time q) p.1 ∧ pp_value q = p.2.
Inductive carries (time : string -> Z -> Prop) : value -> result -> Prop :=
| car_scalar t v s : time s t -> carries time (VScalar t v) (RScalar s v)
| car_vector ss rs : Forall2 (fun x y => same_labels x.1 y.1 ∧ same_point time x.2 y.2) ss rs ->
    carries time (VVector ss) (RVector rs)
| car_matrix ss rs : Forall2 (fun x y => same_labels x.1 y.1 ∧ Forall2 (same_point time) x.2 y.2) ss rs ->
    carries time (VMatrix ss) (RMatrix rs).
(** the times in a value *)
Definition times_in (v : value) : list Z :=
  match v with
  | VScalar t _ => [t]
  | VVector ss => (fun x => x.2.1) <$> ss
  | VMatrix ss => x ← ss; x.2.*1
  | VString t _ => [t]
  end.

(** The time an instant query is for: the one given, or the current time in whole
    seconds. *)
Definition asked_time (L : libraries) (now : Z) (time : string) (t : Z) : Prop :=
  (time = "" ∧ t mod 1000000000 = 0 ∧ t <= now < t + 1000000000) ∨ (time ≠ "" ∧ lib_time L time = inl t).
