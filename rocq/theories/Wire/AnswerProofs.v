(** What an answer shows, and the order of its fields. *)
From Coq Require Import Ascii String.
From stdpp Require Import prelude strings list gmap.
From Verif.Query Require Model.
From Verif.Json Require Import Text Pb Spec SpecPb.
From Verif.Marshaler Require Import Model Spec.
From Verif.Wire Require Import Format Model Spec FormatProofs Proofs Order Result SpecResult SpecAnswer.
Open Scope string_scope.
Open Scope list_scope.
Open Scope Z_scope.

Section A.
Context (L : lib) (of_bits : Z -> flt L).
Lemma shown q r : equal_result L (message_of L of_bits q) r -> shows L of_bits q r.
Proof.
  destruct q as [t v|ss|ss]; cbn [message_of]; intros H; inversion H as [p E1 E2|v' l Hl E1 E2|m' l Hl E1 E2]; subst.
  - constructor.
  - constructor. clear H. revert l Hl. induction ss as [|[ls p] ss IH]; intros l Hl; cbn [fmap list_fmap] in Hl; inversion Hl as [|x y xs ys H1 H2]; subst; constructor.
    + inversion H1 as [m m' x Hm]; subst. cbn [fst snd] in *. constructor; [by rewrite <-Hm|]. constructor.
    + by apply IH.
  - constructor. clear H. revert l Hl. induction ss as [|[ls ps] ss IH]; intros l Hl; cbn [fmap list_fmap] in Hl; inversion Hl as [|x y xs ys H1 H2]; subst; constructor.
    + inversion H1 as [m m' x Hm]; subst. cbn [fst snd] in *. constructor; [by rewrite <-Hm|].
      clear. induction ps; constructor; [constructor|done].
    + by apply IH.
Qed.
Lemma point_commute f g : f.1 <> g.1 -> commute (point_step L of_bits) f g.
Proof. destruct f as [k v], g as [l w]. cbn [fst]. intros H a. destruct a. unfold point_step. commuting. Qed.
Lemma sample_commute f g : f.1 <> g.1 -> commute (sample_step L of_bits) f g.
Proof. destruct f as [k v], g as [l w]. cbn [fst]. intros H a. destruct a. unfold sample_step, get_entry. commuting. Qed.
Lemma series_commute f g : f.1 <> g.1 -> commute (series_step L of_bits) f g.
Proof. destruct f as [k v], g as [l w]. cbn [fst]. intros H a. destruct a. unfold series_step, get_entry. commuting. Qed.
End A.
