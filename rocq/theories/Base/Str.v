(** Go strings as byte strings, and the few functions of packages strings and sort used by the
    code: Join, Split and IndexAny-style cutting on single-byte separators, sort.Strings. *)
From Coq Require Import Ascii String.
From stdpp Require Import prelude strings sorting.

(** Byte equality. *)
Definition ceqb (a b : ascii) : bool := bool_decide (a = b).

(** Does some byte of [s] satisfy [p]?  strings.ContainsAny / IndexAny >= 0 *)
Fixpoint str_any (p : ascii -> bool) (s : string) : bool :=
  match s with
  | EmptyString => false
  | String c s' => p c || str_any p s'
  end.

(** Do all bytes satisfy [p]? *)
Fixpoint str_all (p : ascii -> bool) (s : string) : bool :=
  match s with
  | EmptyString => true
  | String c s' => p c && str_all p s'
  end.

(** strings.ContainsRune(s, c) for a one-byte c *)
Definition has_char (c : ascii) (s : string) : bool := str_any (ceqb c) s.

(** Split a string at every byte satisfying [p]: strings.Split(s, sep) for a one-byte sep (Go's
    strings package), and the repeated strings.IndexAny cutting of net/url.  The result is never
    empty: Split("", sep) = [""]. *)
Fixpoint split_on (p : ascii -> bool) (s : string) : list string :=
  match s with
  | EmptyString => [EmptyString]
  | String c s' =>
      if p c then EmptyString :: split_on p s'
      else match split_on p s' with
           | [] => [String c EmptyString]
           | w :: ws => String c w :: ws
           end
  end.

(** strings.Split(s, string(c)) *)
Definition split (c : ascii) (s : string) : list string := split_on (ceqb c) s.

(** Cut at the first byte [c]: (before, after); [None] if absent.  strings.Index + slicing. *)
Fixpoint cut (c : ascii) (s : string) : option (string * string) :=
  match s with
  | EmptyString => None
  | String d s' =>
      if ceqb c d then Some (EmptyString, s')
      else '(a, b) ← cut c s'; Some (String d a, b)
  end.

(** strings.Join(l, string(c)) *)
Fixpoint join (c : ascii) (l : list string) : string :=
  match l with
  | [] => EmptyString
  | w :: l' => match l' with
               | [] => w
               | _ :: _ => append w (String c (join c l'))
               end
  end.

(** Remove a prefix; [None] if it is not one.  strings.HasPrefix + slicing. *)
Fixpoint strip_prefix (pre s : string) : option string :=
  match pre, s with
  | EmptyString, _ => Some s
  | String a pre', String b s' => if ceqb a b then strip_prefix pre' s' else None
  | String _ _, EmptyString => None
  end.

(** Byte-wise lexicographic order, the order of Go's string comparison. *)
Definition str_le (a b : string) : Prop := String.leb a b = true.
Global Instance str_le_dec : RelDecision str_le.
Proof. intros a b. unfold str_le. apply _. Defined.

(** sort.Strings.  Any correct sort of distinct strings gives the same list. *)
Definition sort_strings (l : list string) : list string := merge_sort str_le l.
