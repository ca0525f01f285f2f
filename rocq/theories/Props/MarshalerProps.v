(** C62: the Prometheus-style JSON encoding of a query result decodes to the
    same result.  Vocabulary: Marshaler/Spec.v.  [L] stands for strconv and
    encoding/json; what is assumed of them is [exact_short] and [stable3]
    (see C84 for the latter). *)
From Coq Require Import String Ascii ZArith Reals Lra.
From stdpp Require Import prelude gmap strings.
From Flocq Require Import Core.
From Verif.Marshaler Require Import Model Spec Proofs Millis.
Open Scope string_scope.
Open Scope list_scope.
Open Scope nat_scope.

(** False in general: a result with no member set is encoded without error and
    cannot be decoded. *)
Theorem C62_unset_refuted : forall L : lib, exists j, marshal L None = Some j /\
  unmarshal L false j = None /\ unmarshal L true j = None.
Proof. exact unset_lost. Qed.
Print Assumptions C62_unset_refuted.

(** Exactly the results whose points all have a finite time are encoded. *)
Theorem C62_encodes : forall (L : lib) (r : result L),
  is_Some (marshal L (Some r)) <-> good_result L r.
Proof. exact marshal_good. Qed.
Print Assumptions C62_encodes.

(** Whatever is encoded is decoded to the same result, its times written with
    three decimals; as the result of a range query if it is a matrix, and only
    then.  Missing for the full property: results with no member set (refuted
    above), and labels with invalid UTF-8, which encoding/json replaces. *)
Theorem C62_round_trip_partial : forall (L : lib), exact_short L -> stable3 L ->
  forall (r : result L) j, clean_result L r -> marshal L (Some r) = Some j ->
  exists r', unmarshal L false j = Some (Some r') /\ same_result L r r' /\
    (unmarshal L true j = match r with RMatrix _ => Some (Some r') | _ => None end).
Proof. exact marshal_round. Qed.
Print Assumptions C62_round_trip_partial.

(** A time that already has three decimals is kept as it is. *)
Theorem C62_millis : forall (L : lib), stable3 L ->
  forall p p', millis L p -> same_point L p p' -> p' = p.
Proof. exact same_point_millis. Qed.
Print Assumptions C62_millis.

(** A library that meets the assumptions: numbers written in unary, and "three
    decimals" being even numbers. *)
Fixpoint unary (n : nat) : string := match n with O => "" | S n => String "I"%char (unary n) end.
Fixpoint parse_unary (s : string) : option nat :=
  match s with
  | EmptyString => Some O
  | String c s => if decide (c = "I"%char) then S <$> parse_unary s else None
  end.
Definition example_lib : lib :=
  Lib nat parse_unary (fun _ => true) (fun n => unary (2 * Nat.div2 n)) unary (fun s => s).
Lemma parse_unary_unary n : parse_unary (unary n) = Some n.
Proof. induction n as [|n IH]; [done|]. cbn. by rewrite IH. Qed.
Example C62_example_lib : exact_short example_lib /\ stable3 example_lib.
Proof.
  split.
  - intros v. apply parse_unary_unary.
  - intros t _. exists (2 * Nat.div2 t). split; [apply parse_unary_unary|].
    cbn [fmt3 example_lib]. by rewrite Nat.div2_double.
Qed.
#[local] Instance example_flt : EqDecision (flt example_lib) := Nat.eq_dec.
#[local] Instance example_point : EqDecision (point example_lib).
Proof. solve_decision. Defined.
#[local] Instance example_sample : EqDecision (sample example_lib).
Proof. solve_decision. Defined.
#[local] Instance example_series : EqDecision (series example_lib).
Proof. solve_decision. Defined.
#[local] Instance example_result : EqDecision (result example_lib).
Proof. solve_decision. Defined.
Example C62_example :
  let p t v := Some (@Point example_lib t v) in
  let r := RMatrix (Some [Some (Series (Some {["a" := "b"; "c" := "d"]}) [p "IIIII" 3; p "II" 4]);
                          Some (Series None [])]) in
  clean_result example_lib r /\
  exists j, marshal example_lib (Some r) = Some j /\
   unmarshal example_lib true j =
     Some (Some (RMatrix (Some [Some (Series (Some {["a" := "b"; "c" := "d"]}) [p "IIII" 3; p "II" 4]);
                          Some (Series (Some ∅) [])]))).
Proof. split; [by intros s _ k v _|]. eexists. split; [reflexivity|].
  apply (bool_decide_unpack _). vm_compute. exact I.
Qed.

(** * C84: a time written with three decimals survives being read as a float64
      and written again, for every float64. *)
Theorem C84_millis_stable : forall t : R, fmt64 t ->
  thousandths (read_thousandths (thousandths t)) = thousandths t.
Proof. exact millis_stable. Qed.
Print Assumptions C84_millis_stable.

(** The largest float64 is one; so is a number halfway between two
    thousandths. *)
Example C84_example : fmt64 (1 / 16)%R /\ fmt64 (IZR (2 ^ 53 - 1) * bpow radix2 971)%R.
Proof.
  split.
  - apply generic_format_FLT. exists (Float radix2 1 (-4)).
    + unfold F2R, Fnum, Fexp. change (bpow radix2 (-4)) with (/ 16)%R. lra.
    + done.
    + done.
  - apply generic_format_FLT. exists (Float radix2 (2 ^ 53 - 1) 971); done.
Qed.
