(** JSON text as RFC 8259 defines it, and UTF-8 as the Unicode standard does (D92): what a text stands for. *)
From Coq Require Import Ascii String.
From stdpp Require Import prelude strings list.
From Verif.Marshaler Require Import Model.
From Verif.Json Require Import Spec.
Open Scope string_scope.
Open Scope list_scope.

(** ** UTF-8: the bytes of a code point; the shortest form, and no surrogates *)
Definition code (c : ascii) : N := N_of_ascii c.
Definition continues (c : ascii) : Prop := (128 <= code c < 192)%N.
Inductive encodes : string -> N -> Prop :=
| enc_1 a n : n = code a -> (n < 128)%N -> encodes (String a "") n
| enc_2 a b n : (192 <= code a < 224)%N -> continues b ->
    n = ((code a - 192) * 64 + (code b - 128))%N -> (128 <= n)%N -> encodes (String a (String b "")) n
| enc_3 a b c n : (224 <= code a < 240)%N -> continues b -> continues c ->
    n = ((code a - 224) * 4096 + (code b - 128) * 64 + (code c - 128))%N -> (2048 <= n)%N -> ~ (55296 <= n < 57344)%N ->
    encodes (String a (String b (String c ""))) n
| enc_4 a b c d n : (240 <= code a < 248)%N -> continues b -> continues c -> continues d ->
    n = ((code a - 240) * 262144 + (code b - 128) * 4096 + (code c - 128) * 64 + (code d - 128))%N ->
    (65536 <= n < 1114112)%N -> encodes (String a (String b (String c (String d "")))) n.
(** U+FFFD, which replaces what is no character *)
Definition substitute (s : string) : Prop := encodes s 65533.
(** Every byte with which no character begins is replaced *)
Inductive repaired : string -> string -> Prop :=
| rep_nil : repaired "" ""
| rep_char b n s t : encodes b n -> repaired s t -> repaired (append b s) (append b t)
| rep_byte a s t u : (forall b n r, String a s = append b r -> ~ encodes b n) -> substitute u -> repaired s t ->
    repaired (String a s) (append u t).

(** ** Strings: bytes, and the UTF-16 units that are spelled out *)
Inductive symbol := Plain (c : ascii) | UtfUnit (n : N).
Definition hex_digits : list (ascii * N) :=
  [("0",0); ("1",1); ("2",2); ("3",3); ("4",4); ("5",5); ("6",6); ("7",7); ("8",8); ("9",9);
   ("a",10); ("b",11); ("c",12); ("d",13); ("e",14); ("f",15); ("A",10); ("B",11); ("C",12); ("D",13); ("E",14); ("F",15)]%char%N.
Definition escapes : list (ascii * ascii) :=
  [("034","034"); ("092","092"); ("/","/"); ("b","008"); ("f","012"); ("n","010"); ("r","013"); ("t","009")]%char.
Inductive spelled : string -> list symbol -> Prop :=
| sp_nil : spelled "" []
| sp_plain c s l : (32 <= code c)%N -> c <> "034"%char -> c <> "092"%char -> spelled s l -> spelled (String c s) (Plain c :: l)
| sp_escape e c s l : (e, c) ∈ escapes -> spelled s l -> spelled (String "092" (String e s)) (Plain c :: l)
| sp_unit h1 h2 h3 h4 n1 n2 n3 n4 s l :
    (h1, n1) ∈ hex_digits -> (h2, n2) ∈ hex_digits -> (h3, n3) ∈ hex_digits -> (h4, n4) ∈ hex_digits -> spelled s l ->
    spelled (String "092" (String "u" (String h1 (String h2 (String h3 (String h4 s))))))
      (UtfUnit (n1 * 4096 + n2 * 256 + n3 * 16 + n4) :: l).
Definition high (n : N) : Prop := (55296 <= n < 56320)%N.
Definition low (n : N) : Prop := (56320 <= n < 57344)%N.
(** Two surrogates are a character beyond the first plane; one alone is none *)
Inductive meaning : list symbol -> string -> Prop :=
| mean_nil : meaning [] ""
| mean_plain c l s : meaning l s -> meaning (Plain c :: l) (String c s)
| mean_unit n b l s : ~ high n -> ~ low n -> encodes b n -> meaning l s -> meaning (UtfUnit n :: l) (append b s)
| mean_pair n m b l s : high n -> low m -> encodes b (65536 + (n - 55296) * 1024 + (m - 56320)) -> meaning l s ->
    meaning (UtfUnit n :: UtfUnit m :: l) (append b s)
| mean_lone n u l s : high n -> (forall m l', l = UtfUnit m :: l' -> ~ low m) -> substitute u -> meaning l s ->
    meaning (UtfUnit n :: l) (append u s)
| mean_low n u l s : low n -> substitute u -> meaning l s -> meaning (UtfUnit n :: l) (append u s).
(** what is between the quotes, and the text it stands for *)
Definition string_text (raw t : string) : Prop := exists l s, spelled raw l /\ meaning l s /\ repaired s t.

(** ** Values *)
(** space, tab, line feed, carriage return *)
Inductive blank : string -> Prop :=
| blank_nil : blank ""
| blank_cons c s : c ∈ [" "; "009"; "010"; "013"]%char -> blank s -> blank (String c s).
Inductive value_text : string -> json -> Prop :=
| vt_null : value_text "null" JNull
| vt_true : value_text "true" (JBool true)
| vt_false : value_text "false" (JBool false)
| vt_num t : number_text t -> value_text t (JNum t)
| vt_str raw t : string_text raw t -> value_text (String "034" (append raw (String "034" ""))) (JStr t)
| vt_arr0 w : blank w -> value_text (String "[" (append w "]")) (JArr [])
| vt_arr s l : elements_text s l -> value_text (String "[" (append s "]")) (JArr l)
| vt_obj0 w : blank w -> value_text (String "{" (append w "}")) (JObj [])
| vt_obj s l : members_text s l -> value_text (String "{" (append s "}")) (JObj l)
with elements_text : string -> list json -> Prop :=
| et_one w s w' j : blank w -> value_text s j -> blank w' -> elements_text (append w (append s w')) [j]
| et_more w s w' j r l : blank w -> value_text s j -> blank w' -> elements_text r l ->
    elements_text (append w (append s (append w' (String "," r)))) (j :: l)
with members_text : string -> list (string * json) -> Prop :=
| mt_one w1 raw k w2 w3 s j w4 : blank w1 -> string_text raw k -> blank w2 -> blank w3 -> value_text s j -> blank w4 ->
    members_text (append w1 (String "034" (append raw (String "034" (append w2 (String ":" (append w3 (append s w4)))))))) [(k, j)]
| mt_more w1 raw k w2 w3 s j w4 r l : blank w1 -> string_text raw k -> blank w2 -> blank w3 -> value_text s j -> blank w4 -> members_text r l ->
    members_text (append w1 (String "034" (append raw (String "034" (append w2 (String ":" (append w3 (append s (append w4 (String "," r)))))))))) ((k, j) :: l).
(** A text: a value, with blanks around it *)
Definition json_text (t : string) (j : json) : Prop := exists w s w', t = append w (append s w') /\ blank w /\ value_text s j /\ blank w'.
