(** Model of rfc5424.NewMachine().Parse of github.com/influxdata/go-syslog, the parser of one message that
    octetcounting.NewParser (server.go:102) uses: rfc5424/machine.go.rl and syslog_message.go.  The library's source is not in
    /repo; this is the library as published in 2018 (version 1), without its best-effort mode, which server.go does not switch
    on.  It is a state machine over bytes; here each part of a message is read in turn, which is the same because every part
    is ended by a byte that cannot belong to it. *)
From Coq Require Import Ascii String.
From stdpp Require Import prelude gmap strings list.
From Verif.Base Require Import GoInt Envelope Str Dec.
From Verif.Times Require Import Texts.
From Verif.Syslog Require Import Model.
Local Open Scope string_scope.
Local Open Scope Z_scope.

(** the longest beginning whose bytes satisfy p, and the rest *)
Fixpoint span (p : ascii -> bool) (s : string) : string * string :=
  match s with
  | String c r => if p c then let '(w, t) := span p r in (String c w, t) else ("", s)
  | EmptyString => ("", s)
  end.
Definition between (lo hi : nat) (c : ascii) : bool := (lo <=? byte c)%nat && (byte c <=? hi)%nat.
(** ABNF's PRINTUSASCII; SD-NAME is PRINTUSASCII without the characters = ] and the double quote *)
Definition print_us_ascii (c : ascii) : bool := between 33 126 c.
Definition quote : ascii := """".
Definition backslash : ascii := "\".
Definition name_byte (c : ascii) : bool := print_us_ascii c && negb (ceqb c "=" || ceqb c "]" || ceqb c quote).
(** 1 to n of them *)
Definition some_of (n : nat) (p : ascii -> bool) (s : string) : option (string * string) :=
  let '(w, r) := span p s in
  if ((1 <=? String.length w) && (String.length w <=? n))%nat then Some (w, r) else None.

(** prival: 0 to 191 without leading zeros; set_prival *)
Definition leading_zero (w : string) : bool := match w with String c (String _ _) => ceqb c "0" | _ => false end.
Definition get_priority (s : string) : option (Z * string) :=
  s ← skip_byte "<" s;
  '(w, s) ← some_of 3 is_digit s;
  p ← digits w;
  s ← skip_byte ">" s;
  if leading_zero w || (191 <? p) then None else Some (p, s).
(** version: a digit that is not 0 and up to two more.  The number itself is of no use to server.go. *)
Definition get_version (s : string) : option string :=
  '(w, s) ← some_of 3 is_digit s;
  match w with
  | String c _ => if ceqb c "0" then None else Some s
  | EmptyString => None
  end.

(** the machine's datetime: the shape of the text, months 01 to 12, days 01 to 31, hours to 23, minutes and seconds to 59, up
    to six digits after the point *)
Definition two_digits (lo hi : Z) (s : string) : option string :=
  '(n, s) ← getnum true s; if (lo <=? n) && (n <=? hi) then Some s else None.
Definition get_micros (s : string) : option string :=
  match skip_byte "." s with
  | Some r => '(_, r) ← some_of 6 is_digit r; Some r
  | None => Some s
  end.
Definition get_offset (s : string) : option string :=
  match s with
  | String c r =>
      if ceqb c "Z" then Some r
      else if ceqb c "+" || ceqb c "-" then r ← two_digits 0 23 r; r ← skip_byte ":" r; two_digits 0 59 r
      else None
  | EmptyString => None
  end.
Definition datetime_shape (s : string) : option string :=
  '(_, s) ← get_year s; s ← skip_byte "-" s;
  s ← two_digits 1 12 s; s ← skip_byte "-" s;
  s ← two_digits 1 31 s; s ← skip_byte "T" s;
  s ← two_digits 0 23 s; s ← skip_byte ":" s;
  s ← two_digits 0 59 s; s ← skip_byte ":" s;
  s ← two_digits 0 59 s;
  s ← get_micros s; get_offset s.
(** timestamp: -, or a datetime, which is then given to time.Parse (set_timestamp); an error there is an error of the message.
    The layout is RFC3339 with up to six digits of a second; time.Parse takes a fraction whatever the layout says. *)
Definition not_space (c : ascii) : bool := negb (ceqb c " ").
Definition get_timestamp (s : string) : option (option Z * string) :=
  let '(w, r) := span not_space s in
  if String.eqb w "-" then Some (None, r)
  else match datetime_shape w with
       | Some EmptyString => t ← rfc3339_text w; Some (Some t, r)
       | _ => None
       end.

(** hostname, appname, procid, msgid; export() leaves out those that are - *)
Definition get_field (n : nat) (s : string) : option (option string * string) :=
  '(w, r) ← some_of n print_us_ascii s;
  Some (if String.eqb w "-" then None else Some w, r).

(** UTF-8 as the machine reads it, byte by byte: the ranges in which the bytes that complete a character must lie *)
Definition lead (c : ascii) : option (list (nat * nat)) :=
  let tail := (128, 191)%nat in
  if between 0 127 c then Some []
  else if between 194 223 c then Some [tail]
  else if between 224 224 c then Some [(160, 191)%nat; tail]
  else if between 225 236 c then Some [tail; tail]
  else if between 237 237 c then Some [(128, 159)%nat; tail]
  else if between 238 239 c then Some [tail; tail]
  else if between 240 240 c then Some [(144, 191)%nat; tail; tail]
  else if between 241 243 c then Some [tail; tail; tail]
  else if between 244 244 c then Some [(128, 143)%nat; tail; tail]
  else None.
Definition utf8_step (st : list (nat * nat)) (c : ascii) : option (list (nat * nat)) :=
  match st with
  | [] => lead c
  | (lo, hi) :: st' => if between lo hi c then Some st' else None
  end.
Fixpoint utf8_ok (st : list (nat * nat)) (s : string) : bool :=
  match s with
  | EmptyString => match st with [] => true | _ => false end
  | String c r => match utf8_step st c with Some st' => utf8_ok st' r | None => false end
  end.

(** a parameter's value up to the closing quote; a backslash must precede a double quote, a backslash or ], and is taken away
    (set_paramvalue) *)
Definition to_escape (c : ascii) : bool := ceqb c quote || ceqb c backslash || ceqb c "]".
Definition cons_byte (c : ascii) (o : option (string * string)) : option (string * string) :=
  '(v, r) ← o; Some (String c v, r).
Fixpoint get_value (st : list (nat * nat)) (s : string) : option (string * string) :=
  match s with
  | EmptyString => None
  | String c r =>
      match st with
      | [] =>
          if ceqb c quote then Some ("", r)
          else if ceqb c backslash then
            match r with
            | String e r' => if to_escape e then cons_byte e (get_value [] r') else None
            | EmptyString => None
            end
          else if ceqb c "]" then None
          else match lead c with Some st' => cons_byte c (get_value st' r) | None => None end
      | (lo, hi) :: st' => if between lo hi c then cons_byte c (get_value st' r) else None
      end
  end.
(** parameters, each after a space, up to the closing bracket; elements, as many as there are.  [fuel]: the length of the text *)
Fixpoint get_params (fuel : nat) (s : string) : option (list (string * string) * string) :=
  match fuel, s with
  | S fuel', String c r =>
      if ceqb c "]" then Some ([], r)
      else if ceqb c " " then
        '(n, r) ← some_of 32 name_byte r;
        r ← skip_byte "=" r; r ← skip_byte quote r;
        '(v, r) ← get_value [] r;
        '(ps, r) ← get_params fuel' r;
        Some ((n, v) :: ps, r)
      else None
  | _, _ => None
  end.
Fixpoint get_elements (fuel : nat) (s : string) : option (list (string * list (string * string)) * string) :=
  match fuel, s with
  | S fuel', String c r =>
      if ceqb c "[" then
        '(i, r) ← some_of 32 name_byte r;
        '(ps, r) ← get_params (String.length r) r;
        '(es, r) ← get_elements fuel' r;
        Some ((i, ps) :: es, r)
      else Some ([], s)
  | _, _ => Some ([], s)
  end.
(** what set_id and set_paramvalue put into the maps: a parameter given twice has its last value *)
Definition set_params (ps : list (string * string)) : gmap string string :=
  foldl (fun m nv => <[nv.1 := nv.2]> m) ∅ ps.
(** set_id: an element whose name was there before is an error *)
Fixpoint set_elements (d : gmap string (gmap string string)) (es : list (string * list (string * string))) : option (gmap string (gmap string string)) :=
  match es with
  | [] => Some d
  | (i, ps) :: es' => match d !! i with Some _ => None | None => set_elements (<[i := set_params ps]> d) es' end
  end.
Definition get_data (s : string) : option (option (gmap string (gmap string string)) * string) :=
  match skip_byte "-" s with
  | Some r => Some (None, r)
  | None =>
      '(es, r) ← get_elements (String.length s) s;
      match es with
      | [] => None
      | _ => d ← set_elements ∅ es; Some (Some d, r)
      end
  end.
(** the message proper, after a space, if there is one: UTF-8; a byte order mark is kept; export() leaves out an empty one *)
Definition get_text (s : string) : option (option string) :=
  match s with
  | EmptyString => Some None
  | String c r =>
      if ceqb c " " && utf8_ok [] r then Some (if String.eqb r "" then None else Some r) else None
  end.

(** Parse *)
Definition parse_message (s : string) : option smessage :=
  '(p, s) ← get_priority s;
  s ← get_version s; s ← skip_byte " " s;
  '(t, s) ← get_timestamp s; s ← skip_byte " " s;
  '(_, s) ← get_field 255 s; s ← skip_byte " " s;
  '(a, s) ← get_field 48 s; s ← skip_byte " " s;
  '(q, s) ← get_field 128 s; s ← skip_byte " " s;
  '(_, s) ← get_field 32 s; s ← skip_byte " " s;
  '(d, s) ← get_data s;
  x ← get_text s;
  Some (mk_smsg (Some p) t a q x d).
