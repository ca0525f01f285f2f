(** Model of the octet counting reader of github.com/influxdata/go-syslog (octetcounting.NewParser, Parse with a
    bufio.Reader), as server.go:98-105 uses it on a connection.  The library's source is not in /repo; this is the library
    as published, without its best-effort mode, which server.go does not switch on.

    The input is what has arrived on the connection so far, and whether that is all there will be (the peer has closed it,
    or the read deadline has passed: the reader cannot tell these apart).  How the bytes were cut into TCP segments and TLS
    records does not enter: bufio.Reader waits until it has as many bytes as it is asked for. *)
From Coq Require Import Ascii String.
From stdpp Require Import prelude list.
From Verif.Base Require Import Envelope Str Dec.
From Verif.Syslog Require Import Model.
Open Scope Z_scope.

Section octet.
Context {M : Type}.
Variable size : nat. (* of the bufio.Reader's buffer *)
Variable rfc5424 : string -> option M. (* rfc5424.NewMachine().Parse on one message; None is an error *)
Variable closed : bool.

(** octetcounting.Token: a length, a space, a message, the end, or an illegal byte *)
Inductive token := TLen (n : Z) | TSpace | TMsg (m : string) | TEnd | TIllegal.

(** octetcounting.Scanner: what is left of the input, the length read last, and whether a message comes next *)
Record scanner := mk_scan { sc_rest : string; sc_len : Z; sc_ready : bool }.

(** Scanner.scanMsgLen: digits up to the first other byte.  The byte 0 stands for the end of the input there, and is taken
    away.  None: it waits for more. *)
Definition nul (c : ascii) : bool := (nat_of_ascii c =? 0)%nat.
Fixpoint scan_len (acc : Z) (s : string) : option (Z * string) :=
  match s with
  | EmptyString => if closed then Some (acc, EmptyString) else None
  | String c s' =>
      if nul c then Some (acc, s')
      else if is_digit c then scan_len (acc * 10 + digit_val c) s'
      else Some (acc, s)
  end.

(** strconv.ParseUint gives 2^64-1 for what is too large; int(msglen) is negative from 2^63 on *)
Definition to_int (n : Z) : Z := let u := Z.min n (2^64 - 1) in if u <? 2^63 then u else u - 2^64.

(** Scanner.scanSyslogMsg: bufio.Reader.Peek(n) refuses a negative n at once; it waits until n bytes are there, its buffer
    is full, or the input has ended; then it fails unless the n bytes are there.  Simplified: if the input ends right after
    the space and the length is 1, the reader is stepped back onto the space, which is then taken for the message; it is no
    RFC 5424 message, so that is one error, as here. *)
Definition scan_msg (st : scanner) : option (token * scanner) :=
  let n := to_int (sc_len st) in
  let have := Z.of_nat (String.length (sc_rest st)) in
  if n <? 0 then Some (TEnd, st)
  else if have <? Z.min n (Z.of_nat size) then (if closed then Some (TEnd, st) else None)
  else if Z.of_nat size <? n then Some (TEnd, st)
  else Some (TMsg (String.substring 0 (Z.to_nat n) (sc_rest st)),
             mk_scan (skip (Z.to_nat n) (sc_rest st)) 0 false).

(** Scanner.Scan *)
Definition scan (st : scanner) : option (token * scanner) :=
  match sc_rest st with
  | EmptyString => if closed then Some (TEnd, st) else None
  | String c r =>
      if sc_ready st then scan_msg st
      else if is_digit c && negb (ceqb c "0")
      then match scan_len 0 (sc_rest st) with
           | Some (n, r') => Some (TLen n, mk_scan r' n false)
           | None => None
           end
      else if nul c then Some (TEnd, mk_scan r (sc_len st) false)
      else if ceqb c " " then Some (TSpace, mk_scan r (sc_len st) true)
      else Some (TIllegal, mk_scan r (sc_len st) false)
  end.

(** parser.run: [first] is the token the loop begins with.  The results handed to the listener, None for an error, and
    whether it has returned (otherwise it is waiting). *)
Fixpoint loop (fuel : nat) (first : option (token * scanner)) : list (option M) * bool :=
  match fuel with
  | O => ([], false)
  | S fuel' =>
      match first with
      | None => ([], false)
      | Some (TLen _, st) =>
          match scan st with
          | None => ([], false)
          | Some (TSpace, st) =>
              match scan st with
              | None => ([], false)
              | Some (TMsg m, st) =>
                  match rfc5424 m with
                  | None => ([None], true)
                  | Some msg =>
                      match scan st with
                      | Some (TEnd, _) => ([Some msg], true)
                      | next => let '(rs, e) := loop fuel' next in (Some msg :: rs, e)
                      end
                  end
              | Some _ => ([None], true)
              end
          | Some _ => ([None], true)
          end
      | Some _ => ([None], true)
      end
  end.
(** parser.Parse; every round takes at least one byte *)
Definition octets (s : string) : list (option M) * bool := loop (S (String.length s)) (scan (mk_scan s 0 false)).
End octet.
