(** RFC 4648, section 4: the base 64 text of bytes. *)
From Coq Require Import Ascii String.
From stdpp Require Import prelude strings list.
Open Scope string_scope.
Open Scope list_scope.

Definition alphabet : list ascii := list_ascii_of_string "ABCDEFGHIJKLMNOPQRSTUVWXYZabcdefghijklmnopqrstuvwxyz0123456789+/".
(** The last w binary digits of n, the highest first *)
Fixpoint binary (w n : nat) : list bool :=
  match w with
  | O => []
  | S w' => binary w' (Nat.div2 n) ++ [Nat.odd n]
  end.
(** text is the base 64 text of s: the characters stand for the bits of s, six at a time, filled up with zeros; then
    equals signs up to a multiple of four characters *)
Definition base64_text (s text : string) : Prop :=
  exists digits zeros pads,
    Forall (fun d => d < 64) digits /\
    list_ascii_of_string text = omap (fun d => alphabet !! d) digits ++ replicate pads "="%char /\
    mjoin (binary 6 <$> digits) = mjoin ((fun c => binary 8 (nat_of_ascii c)) <$> list_ascii_of_string s) ++ replicate zeros false /\
    zeros < 6 /\ pads < 4 /\ String.length text mod 4 = 0.
