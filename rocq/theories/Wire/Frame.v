(** How a message crosses a gRPC connection: the length-prefixed frame and the limit on its size.  grpc-go is not in the
    repository; this is transcribed from its published source (rpc_util.go msgHeader, parser.recvMsg; the defaults of
    server.go and clientconn.go, which no option of the repository changes).
    Left out: HTTP/2 below, which carries the bytes in order or fails the call; compression, which no component turns on. *)
From Coq Require Import Ascii String.
From stdpp Require Import prelude strings list gmap.
From Verif.Base Require Import Envelope.
From Verif.Store Require Import Model.
From Verif.Routing Require Import Model.
From Verif.Wire Require Import Format Model Node.
Open Scope Z_scope.

(** defaultServerMaxReceiveMessageSize, defaultClientMaxReceiveMessageSize *)
Definition max_receive : Z := 4194304.
(** defaultServerMaxSendMessageSize, defaultClientMaxSendMessageSize: math.MaxInt32 *)
Definition max_send : Z := 2147483647.

(** msgHeader: a byte that says whether the message is compressed, its length in four bytes, the highest first *)
Definition header (n : Z) : string :=
  String (byte 0) (String (byte (n / 2^24 mod 256)) (String (byte (n / 2^16 mod 256)) (String (byte (n / 2^8 mod 256)) (String (byte (n mod 256)) EmptyString)))).
Definition frame (b : string) : option string :=
  let n := Z.of_nat (String.length b) in if n <=? max_send then Some (header n +:+ b) else None.
(** recvMsg and checkRecvPayload: the message and what follows it; None is an error (the message is too large, compressed or cut short) *)
Definition recv_msg (limit : Z) (s : string) : option (string * string) :=
  match s with
  | String f (String a (String b (String c (String d r)))) =>
      let n := value a * 2^24 + value b * 2^16 + value c * 2^8 + value d in
      if limit <? n then None else if value f =? 0 then cut (Z.to_nat n) r else None
  | _ => None
  end.
(** one message from one end to the other *)
Definition carried (b : string) : option string := s ← frame b; '(b', _) ← recv_msg max_receive s; Some b'.
(** a unary call: the request, then the answer *)
Definition over (peer : string -> option string) (b : string) : option string := b' ← carried b; r ← peer b'; carried r.

(** A node's port with the connection before it; a request that does not come through is refused without a trace, an
    answer that does not come through was still computed. *)
Definition port_call (compile : string -> option (string -> bool)) (mine : string -> bool) (c : call) (s : store)
  : option (store * option string) :=
  let via b f :=
    match carried b with
    | None => Some (s, None)
    | Some b' => '(s', a) ← node_call compile mine (f b') s; Some (s', a ≫= carried)
    end in
  match c with
  | CallSend now b => via b (CallSend now)
  | CallRead now b => via b (CallRead now)
  | CallMeta b => via b CallMeta
  | Tick _ _ _ => node_call compile mine c s
  end.
Fixpoint port_run (compile : string -> option (string -> bool)) (mine : string -> bool) (cs : list call) (s : store) : option store :=
  match cs with
  | [] => Some s
  | c :: cs' => '(s', _) ← port_call compile mine c s; port_run compile mine cs' s'
  end.
