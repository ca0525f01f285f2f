(** JSON text, as Go's encoding/json writes and reads it.  The package is not in the repository; this is
    transcribed from its published source.  The gateway writes with it (pkg/marshaler/marshaler.go:44,
    internal/gateway/gateway.go:205, and through jsonpb), the client reads with it
    (pkg/client/client.go:147, 275, 340, 376, 561, 694).  Trees are those of Marshaler/Model.v.
    Left out: the limit of 10000 nested values when reading. *)
From Coq Require Import Ascii String.
From stdpp Require Import prelude strings list.
From Verif.Base Require Import Str Url Dec.
From Verif.Marshaler Require Import Model.
Open Scope string_scope.
Open Scope list_scope.

(** ** UTF-8, package unicode/utf8 *)

Definition within (lo hi : nat) (c : ascii) : bool := (lo <=? nat_of_ascii c)%nat && (nat_of_ascii c <=? hi)%nat.
(** the tables first and acceptRanges: sequences of two, three and four bytes *)
Definition seq2 (a b : ascii) : bool := within 194 223 a && within 128 191 b.
Definition seq3 (a b c : ascii) : bool :=
  (within 224 224 a && within 160 191 b || within 225 236 a && within 128 191 b ||
   within 237 237 a && within 128 159 b || within 238 239 a && within 128 191 b) && within 128 191 c.
Definition seq4 (a b c d : ascii) : bool :=
  (within 240 240 a && within 144 191 b || within 241 243 a && within 128 191 b ||
   within 244 244 a && within 128 143 b) && within 128 191 c && within 128 191 d.
(** A string as DecodeRune goes through it: the bytes of a rune, or one byte that begins none *)
Inductive chunk := Rune (bytes : string) | Bad.
Fixpoint chunks (s : string) : list chunk :=
  match s with
  | EmptyString => []
  | String a s1 =>
      if within 0 127 a then Rune (String a "") :: chunks s1
      else match s1 with
      | EmptyString => [Bad]
      | String b s2 =>
          if seq2 a b then Rune (String a (String b "")) :: chunks s2
          else match s2 with
          | EmptyString => Bad :: chunks s1
          | String c s3 =>
              if seq3 a b c then Rune (String a (String b (String c ""))) :: chunks s3
              else match s3 with
              | EmptyString => Bad :: chunks s1
              | String d s4 =>
                  if seq4 a b c d then Rune (String a (String b (String c (String d "")))) :: chunks s4
                  else Bad :: chunks s1
              end
          end
      end
  end.
Fixpoint concat_map {A} (f : A -> string) (l : list A) : string :=
  match l with [] => "" | x :: l => append (f x) (concat_map f l) end.
(** U+FFFD *)
Definition replacement : string := String (ascii_of_nat 239) (String (ascii_of_nat 191) (String (ascii_of_nat 189) "")).
Definition chunk_bytes (k : chunk) : string := match k with Rune b => b | Bad => replacement end.
(** what is left of a string that is written and read: every byte that is not UTF-8 becomes U+FFFD *)
Definition utf8_clean (s : string) : string := concat_map chunk_bytes (chunks s).
(** utf8.EncodeRune, of a code point that is no surrogate *)
Definition byte (n : N) : string := String (ascii_of_N n) "".
Definition encode_rune (n : N) : string :=
  (if n <? 128 then byte n
   else if n <? 2048 then append (byte (192 + n / 64)) (byte (128 + n mod 64))
   else if n <? 65536 then append (byte (224 + n / 4096)) (append (byte (128 + n / 64 mod 64)) (byte (128 + n mod 64)))
   else append (byte (240 + n / 262144))
          (append (byte (128 + n / 4096 mod 64)) (append (byte (128 + n / 64 mod 64)) (byte (128 + n mod 64)))))%N.

(** ** Writing *)

(** hex of encode.go: lower case *)
Definition hex_char (n : nat) : ascii := if (n <? 10)%nat then ascii_of_nat (48 + n) else ascii_of_nat (87 + n).
Definition dquote : ascii := ascii_of_nat 34.
Definition backslash : ascii := ascii_of_nat 92.
Definition escaped (c : ascii) : string := String backslash (String c "").
(** encodeState.string with escapeHTML: what is written for a rune *)
Definition escape_chunk (k : chunk) : string :=
  match k with
  | Bad => append (escaped "u") "fffd"
  | Rune (String c "") =>
      let n := nat_of_ascii c in
      if (n =? 34)%nat || (n =? 92)%nat then escaped c
      else if (n =? 10)%nat then escaped "n"
      else if (n =? 13)%nat then escaped "r"
      else if (n =? 9)%nat then escaped "t"
      else if (n <? 32)%nat || (n =? 60)%nat || (n =? 62)%nat || (n =? 38)%nat
           then append (escaped "u") (append "00" (String (hex_char (n / 16)) (String (hex_char (n mod 16)) "")))
      else String c ""
  | Rune (String a (String b (String c ""))) =>
      if (nat_of_ascii a =? 226)%nat && (nat_of_ascii b =? 128)%nat && (within 168 169 c)
      then append (escaped "u") (append "202" (String (hex_char (nat_of_ascii c - 160)) ""))
      else String a (String b (String c ""))
  | Rune b => b
  end.
Definition write_string (s : string) : string :=
  String dquote (append (concat_map escape_chunk (chunks s)) (String dquote "")).
(** json.Marshal of a tree; a number is written as it is (strconv, json.RawMessage) *)
Fixpoint write (j : json) : string :=
  match j with
  | JNull => "null"
  | JBool true => "true"
  | JBool false => "false"
  | JNum t => t
  | JStr s => write_string s
  | JArr l => String "[" (append (join "," (map write l)) "]")
  | JObj l => String "{" (append (join "," (map (fun kj => append (write_string kj.1) (String ":" (write kj.2))) l)) "}")
  end.

(** ** Reading *)

Definition is_space (c : ascii) : bool :=
  let n := nat_of_ascii c in (n =? 32)%nat || (n =? 9)%nat || (n =? 10)%nat || (n =? 13)%nat.
Fixpoint skip (s : string) : string := match s with String c r => if is_space c then skip r else s | EmptyString => s end.

(** scanner.go: the inside of a string up to its closing quote; control characters end the reading *)
Fixpoint scan (s : string) : option (string * string) :=
  match s with
  | EmptyString => None
  | String c r =>
      if ceqb c dquote then Some ("", r)
      else if ceqb c backslash then
        match r with
        | EmptyString => None
        | String e r => '(a, b) ← scan r; Some (String c (String e a), b)
        end
      else if (nat_of_ascii c <? 32)%nat then None
      else '(a, b) ← scan r; Some (String c a, b)
  end.
(** decode.go unquote, in two steps: bytes and UTF-16 units, then bytes.  A byte that belongs to no rune
    becomes U+FFFD; it is the same whether this is done before or after the escapes are resolved, as these
    are whole runes. *)
Inductive item := Byte (c : ascii) | Unit (n : N).
Definition hex4 (a b c d : ascii) : option N :=
  a ← unhex a; b ← unhex b; c ← unhex c; d ← unhex d;
  Some (N.of_nat a * 4096 + N.of_nat b * 256 + N.of_nat c * 16 + N.of_nat d)%N.
Definition simple_escape (e : ascii) : option ascii :=
  if ceqb e dquote || ceqb e backslash || ceqb e "/" then Some e
  else if ceqb e "b" then Some (ascii_of_nat 8)
  else if ceqb e "f" then Some (ascii_of_nat 12)
  else if ceqb e "n" then Some (ascii_of_nat 10)
  else if ceqb e "r" then Some (ascii_of_nat 13)
  else if ceqb e "t" then Some (ascii_of_nat 9)
  else None.
Fixpoint items (s : string) : option (list item) :=
  match s with
  | EmptyString => Some []
  | String c r =>
      if ceqb c backslash then
        match r with
        | EmptyString => None
        | String e r =>
            if ceqb e "u" then
              match r with
              | String h1 (String h2 (String h3 (String h4 r))) => n ← hex4 h1 h2 h3 h4; cons (Unit n) <$> items r
              | _ => None
              end
            else x ← simple_escape e; cons (Byte x) <$> items r
        end
      else cons (Byte c) <$> items r
  end.
Definition high_surrogate (n : N) : bool := (55296 <=? n)%N && (n <? 56320)%N.
Definition low_surrogate (n : N) : bool := (56320 <=? n)%N && (n <? 57344)%N.
Fixpoint resolve (l : list item) : string :=
  match l with
  | [] => ""
  | Byte c :: l => String c (resolve l)
  | Unit n :: l1 =>
      if high_surrogate n then
        match l1 with
        | Unit m :: l2 =>
            if low_surrogate m then append (encode_rune (65536 + (n - 55296) * 1024 + (m - 56320))%N) (resolve l2)
            else append replacement (resolve l1)
        | _ => append replacement (resolve l1)
        end
      else if low_surrogate n then append replacement (resolve l1)
      else append (encode_rune n) (resolve l1)
  end.
Definition unquote (raw : string) : option string := l ← items raw; Some (utf8_clean (resolve l)).
Definition read_string (s : string) : option (string * string) := '(raw, r) ← scan s; t ← unquote raw; Some (t, r).

(** The grammar of numbers *)
Fixpoint drop_digits (s : string) : string := match s with String c r => if is_digit c then drop_digits r else s | EmptyString => s end.
Definition starts_digit (s : string) : bool := match s with String c _ => is_digit c | EmptyString => false end.
Definition some_digits (s : string) : bool := starts_digit s && bool_decide (drop_digits s = "").
Definition exponent_ok (s : string) : bool :=
  match s with
  | EmptyString => true
  | String e r =>
      (ceqb e "e" || ceqb e "E") &&
      match r with String g r' => if ceqb g "+" || ceqb g "-" then some_digits r' else some_digits r | EmptyString => false end
  end.
Definition fraction_ok (s : string) : bool :=
  match s with
  | String c r => if ceqb c "." then starts_digit r && exponent_ok (drop_digits r) else exponent_ok s
  | EmptyString => true
  end.
Definition magnitude_ok (s : string) : bool :=
  match s with
  | String c r => if ceqb c "0" then fraction_ok r else is_digit c && fraction_ok (drop_digits r)
  | EmptyString => false
  end.
Definition is_number (s : string) : bool :=
  match s with String c r => if ceqb c "-" then magnitude_ok r else magnitude_ok s | EmptyString => false end.
(** the characters of numbers: none of them may follow a number *)
Definition number_char (c : ascii) : bool :=
  is_digit c || ceqb c "-" || ceqb c "+" || ceqb c "." || ceqb c "e" || ceqb c "E".
Fixpoint span_number (s : string) : string * string :=
  match s with
  | String c r => if number_char c then let '(a, b) := span_number r in (String c a, b) else ("", s)
  | EmptyString => ("", s)
  end.

(** A value and what is left of the text *)
Fixpoint value (n : nat) (s : string) : option (json * string) :=
  match n with
  | O => None
  | S n =>
      match skip s with
      | EmptyString => None
      | String c r =>
          if ceqb c dquote then '(t, r) ← read_string r; Some (JStr t, r)
          else if ceqb c "[" then
            match skip r with
            | String d r' => if ceqb d "]" then Some (JArr [], r') else '(l, r) ← elements n r; Some (JArr l, r)
            | EmptyString => None
            end
          else if ceqb c "{" then
            match skip r with
            | String d r' => if ceqb d "}" then Some (JObj [], r') else '(l, r) ← members n r; Some (JObj l, r)
            | EmptyString => None
            end
          else if number_char c then
            let '(t, r) := span_number (String c r) in if is_number t then Some (JNum t, r) else None
          else match strip_prefix "null" (String c r) with
          | Some r => Some (JNull, r)
          | None => match strip_prefix "true" (String c r) with
            | Some r => Some (JBool true, r)
            | None => match strip_prefix "false" (String c r) with Some r => Some (JBool false, r) | None => None end
            end
          end
      end
  end
with elements (n : nat) (s : string) : option (list json * string) :=
  match n with
  | O => None
  | S n =>
      '(j, r) ← value n s;
      match skip r with
      | String c r =>
          if ceqb c "," then '(l, r) ← elements n r; Some (j :: l, r)
          else if ceqb c "]" then Some ([j], r)
          else None
      | EmptyString => None
      end
  end
with members (n : nat) (s : string) : option (list (string * json) * string) :=
  match n with
  | O => None
  | S n =>
      match skip s with
      | String q r =>
          if ceqb q dquote then
            '(k, r) ← read_string r;
            match skip r with
            | String c r =>
                if ceqb c ":" then
                  '(j, r) ← value n r;
                  match skip r with
                  | String c r =>
                      if ceqb c "," then '(l, r) ← members n r; Some ((k, j) :: l, r)
                      else if ceqb c "}" then Some ([(k, j)], r)
                      else None
                  | EmptyString => None
                  end
                else None
            | EmptyString => None
            end
          else None
      | EmptyString => None
      end
  end.
(** every two calls take a byte *)
Definition enough (s : string) : nat := S (2 * String.length s).
(** json.NewDecoder(r).Decode: the first value *)
Definition read_first (s : string) : option json := fst <$> value (enough s) s.
(** json.Unmarshal: one value and nothing but space after it *)
Definition read_whole (s : string) : option json :=
  '(j, r) ← value (enough s) s; if bool_decide (skip r = "") then Some j else None.
