(** The protobuf wire format: how every gRPC message of the repository travels.  The generated files
    (pkg/rpc/logcache_v1/*.pb.go) only give field numbers and leave reading and writing to
    github.com/golang/protobuf/proto, which is not in the repository: this is transcribed from its published
    source (v1.3: table_marshal.go, table_unmarshal.go).

    Simplification: groups (wire types 3 and 4, which no proto3 message contains) are refused, where the library
    skips balanced ones. *)
From Coq Require Import Ascii String.
From stdpp Require Import prelude strings list.
Open Scope Z_scope.

Definition byte (z : Z) : ascii := ascii_of_N (Z.to_N z).
Definition value (c : ascii) : Z := Z.of_N (N_of_ascii c).

(** table_marshal.go appendVarint: seven bits a byte, the lowest first, the top bit says that more follow *)
Fixpoint put_varint (k : nat) (n : Z) : string :=
  match k with
  | O => EmptyString
  | S k => if n <? 128 then String (byte n) EmptyString else String (byte (n mod 128 + 128)) (put_varint k (n / 128))
  end.
(** table_unmarshal.go decodeVarint: at most ten bytes *)
Fixpoint get_varint (k : nat) (s : string) : option (Z * string) :=
  match k, s with
  | S k, String c r =>
      if value c <? 128 then Some (value c, r)
      else '(n, r') ← get_varint k r; Some (value c - 128 + 128 * n, r')
  | _, _ => None
  end.
Definition write_varint (n : Z) : string := put_varint 10 n.
(** ... and at most 64 bits *)
Definition read_varint (s : string) : option (Z * string) :=
  '(n, r) ← get_varint 10 s; if n <? 2^64 then Some (n, r) else None.

(** table_marshal.go appendFixed64, appendFixed32: k bytes, the lowest first *)
Fixpoint put_fixed (k : nat) (n : Z) : string :=
  match k with O => EmptyString | S k => String (byte (n mod 256)) (put_fixed k (n / 256)) end.
Fixpoint get_fixed (k : nat) (s : string) : option (Z * string) :=
  match k, s with
  | O, _ => Some (0, s)
  | S k, String c r => '(n, r') ← get_fixed k r; Some (value c + 256 * n, r')
  | S _, EmptyString => None
  end.

(** the first k bytes and the rest *)
Fixpoint cut (k : nat) (s : string) : option (string * string) :=
  match k, s with
  | O, _ => Some (EmptyString, s)
  | S k, String c r => '(a, b) ← cut k r; Some (String c a, b)
  | S _, EmptyString => None
  end.

(** What follows a field's tag: wire types 0, 1, 2 and 5 *)
Inductive wire := Varint (n : Z) | Fixed64 (n : Z) | Bytes (s : string) | Fixed32 (n : Z).
Notation field := (Z * wire)%type.

Definition wire_type (w : wire) : Z := match w with Varint _ => 0 | Fixed64 _ => 1 | Bytes _ => 2 | Fixed32 _ => 5 end.
Definition write_wire (w : wire) : string :=
  match w with
  | Varint n => write_varint n
  | Fixed64 n => put_fixed 8 n
  | Bytes s => write_varint (Z.of_nat (String.length s)) +:+ s
  | Fixed32 n => put_fixed 4 n
  end.
Definition write_field (f : field) : string := write_varint (f.1 * 8 + wire_type f.2) +:+ write_wire f.2.
Fixpoint write_fields (fs : list field) : string :=
  match fs with [] => EmptyString | f :: fs => write_field f +:+ write_fields fs end.

(** table_unmarshal.go unmarshal, unmarshalBytesValue, skipField: the tag, the type, the value; field 0 is illegal *)
Definition read_wire (t : Z) (s : string) : option (wire * string) :=
  if t =? 0 then '(n, r) ← read_varint s; Some (Varint n, r)
  else if t =? 1 then '(n, r) ← get_fixed 8 s; Some (Fixed64 n, r)
  else if t =? 2 then
    '(n, r) ← read_varint s;
    if n <=? Z.of_nat (String.length r) then '(a, b) ← cut (Z.to_nat n) r; Some (Bytes a, b) else None
  else if t =? 5 then '(n, r) ← get_fixed 4 s; Some (Fixed32 n, r)
  else None.
Definition read_field (s : string) : option (field * string) :=
  '(x, r) ← read_varint s;
  if x / 8 =? 0 then None else '(w, r') ← read_wire (x mod 8) r; Some ((x / 8, w), r').
Fixpoint read_some (fuel : nat) (s : string) : option (list field) :=
  match s, fuel with
  | EmptyString, _ => Some []
  | _, O => None
  | _, S fuel => '(f, r) ← read_field s; fs ← read_some fuel r; Some (f :: fs)
  end.
(** the loop of unmarshal: until no byte is left *)
Definition read_fields (s : string) : option (list field) := read_some (String.length s) s.
