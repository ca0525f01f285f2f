(** Messages as RFC 5424, section 6, writes them, and what they say.  Narrower than the RFC, as the parser is: no leap seconds
    (RFC 5424 has none either), text in UTF-8 only, and an empty text is none. *)
From Coq Require Import Ascii String.
From stdpp Require Import prelude gmap strings list.
From Verif.Base Require Import Dec.
From Verif.Json Require Import Spec.
From Verif.Times Require Import SpecTexts.
From Verif.Syslog Require Import Model.
Local Open Scope string_scope.
Local Open Scope Z_scope.

(** ** The header *)
Definition priority (s : string) (p : Z) : Prop := numeral s p /\ p <= 191 /\ (s = "0" \/ String.get 0 s <> Some "0"%char).
Definition version (s : string) : Prop := (exists n, numeral s n) /\ (String.length s <= 3)%nat /\ String.get 0 s <> Some "0"%char.
(** a time: RFC 3339 with upper case letters, and no more than six digits after the point *)
Definition micros (f : string) (ns : Z) : Prop := fraction f ns /\ (String.length f <= 7)%nat.
Inductive offset : string -> Z -> Prop :=
| off_utc : offset "Z" 0
| off_east a b h m : digits_of 2 a h -> h < 24 -> digits_of 2 b m -> m < 60 -> offset ("+" ++ a ++ ":" ++ b) (h * 3600 + m * 60)
| off_west a b h m : digits_of 2 a h -> h < 24 -> digits_of 2 b m -> m < 60 -> offset ("-" ++ a ++ ":" ++ b) (- (h * 3600 + m * 60)).
(** in nanoseconds since 1970 *)
Inductive stamp : string -> Z -> Prop :=
| at_stamp Y M D h mi se f z y mo d ho mn sc ns off n :
    digits_of 4 Y y -> digits_of 2 M mo -> digits_of 2 D d -> digits_of 2 h ho -> digits_of 2 mi mn -> digits_of 2 se sc ->
    real (y, mo, d) -> dated n (y, mo, d) -> ho < 24 -> mn < 60 -> sc < 60 -> micros f ns -> offset z off ->
    stamp (Y ++ "-" ++ M ++ "-" ++ D ++ "T" ++ h ++ ":" ++ mi ++ ":" ++ se ++ f ++ z)
      ((n * 86400 + ho * 3600 + mn * 60 + sc - off) * 1000000000 + ns).
(** a hyphen stands for a part that is left out *)
Inductive optional {A} (P : string -> A -> Prop) : string -> option A -> Prop :=
| left_out : optional P "-" None
| given s a : s <> "-" -> P s a -> optional P s (Some a).
Inductive bytes_all (P : ascii -> Prop) : string -> Prop :=
| all_nil : bytes_all P ""
| all_cons c s : P c -> bytes_all P s -> bytes_all P (String c s).
Definition printable (c : ascii) : Prop := range 33 126 c.
Definition word (n : nat) (s : string) : Prop := bytes_all printable s /\ (1 <= String.length s <= n)%nat.
Definition field (n : nat) : string -> option string -> Prop := optional (fun s a => s = a /\ word n s).

(** ** Structured data: elements with a name, and parameters with a name and a value *)
Definition special : list ascii := [""""%char; "\"%char; "]"%char].
Definition name (s : string) : Prop := bytes_all (fun c => printable c /\ c <> "="%char /\ c <> "]"%char /\ c <> """"%char) s /\ (1 <= String.length s <= 32)%nat.
Fixpoint escaped (v : string) : string :=
  match v with
  | EmptyString => ""
  | String c r => if bool_decide (c ∈ special) then String "\" (String c (escaped r)) else String c (escaped r)
  end.
Fixpoint params_text (ps : list (string * string)) : string :=
  match ps with
  | [] => ""
  | (n, v) :: ps' => " " ++ n ++ "=""" ++ escaped v ++ """" ++ params_text ps'
  end.
Fixpoint elements_text (es : list (string * list (string * string))) : string :=
  match es with
  | [] => ""
  | (i, ps) :: es' => "[" ++ i ++ params_text ps ++ "]" ++ elements_text es'
  end.
Definition well_formed (es : list (string * list (string * string))) : Prop :=
  es <> [] /\ NoDup es.*1 /\ Forall (fun e => name e.1 /\ Forall (fun nv => name nv.1 /\ utf8 nv.2) e.2) es.
(** of a parameter given twice the last value counts *)
Definition data_of (es : list (string * list (string * string))) : gmap string (gmap string string) :=
  list_to_map ((fun e => (e.1, list_to_map (reverse e.2))) <$> es).
Inductive structured : string -> option (gmap string (gmap string string)) -> Prop :=
| no_elements : structured "-" None
| some_elements es : well_formed es -> structured (elements_text es) (Some (data_of es)).

(** ** The text *)
Inductive text : string -> option string -> Prop :=
| no_text : text "" None
| empty_text : text " " None
| some_text s : s <> "" -> utf8 s -> text (" " ++ s) (Some s).

(** ** The message: priority, version, time, host, application, process id, message id, data, text *)
Inductive rfc5424 : string -> smessage -> Prop :=
| a_message pri ver tm host app proc mid sd tx p t h a q i d x :
    priority pri p -> version ver -> optional stamp tm t -> field 255 host h -> field 48 app a -> field 128 proc q ->
    field 32 mid i -> structured sd d -> text tx x ->
    rfc5424 ("<" ++ pri ++ ">" ++ ver ++ " " ++ tm ++ " " ++ host ++ " " ++ app ++ " " ++ proc ++ " " ++ mid ++ " " ++ sd ++ tx)
      (mk_smsg (Some p) t a q x d).
