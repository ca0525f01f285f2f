(** The libraries of the client over HTTP (Http/Model.v's [codec]), concretely. *)
From Coq Require Import Ascii String.
From stdpp Require Import prelude strings list gmap.
From Verif.Base Require Import Envelope.
From Verif.Marshaler Require Import Model.
From Verif.Http Require Import Model.
From Verif.Json Require Import Text Pb.
Open Scope Z_scope.

(** grpc-gateway's runtime.HTTPStatusFromCode (v1, runtime/errors.go), used at
    internal/gateway/gateway.go:215 and by its DefaultHTTPError; transcribed *)
Definition status_of (code : Z) : Z :=
  if code =? 0 then 200 (* OK *)
  else if code =? 1 then 408 (* Canceled *)
  else if code =? 2 then 500 (* Unknown *)
  else if code =? 3 then 400 (* InvalidArgument *)
  else if code =? 4 then 504 (* DeadlineExceeded *)
  else if code =? 5 then 404 (* NotFound *)
  else if code =? 6 then 409 (* AlreadyExists *)
  else if code =? 7 then 403 (* PermissionDenied *)
  else if code =? 8 then 429 (* ResourceExhausted *)
  else if code =? 9 then 400 (* FailedPrecondition *)
  else if code =? 10 then 409 (* Aborted *)
  else if code =? 11 then 400 (* OutOfRange *)
  else if code =? 12 then 501 (* Unimplemented *)
  else if code =? 13 then 500 (* Internal *)
  else if code =? 14 then 503 (* Unavailable *)
  else if code =? 15 then 500 (* DataLoss *)
  else if code =? 16 then 401 (* Unauthenticated *)
  else 500.
(** gateway.go:127: jsonpb with OrigName and EmitDefaults *)
Definition gateway_style : style := Style true true.
(** cf_auth_middleware.go:23: jsonpb without options *)
Definition proxy_style : style := Style false false.
Definition go_codec (F : floats) (time : Z -> string) : codec :=
  Codec read_first read_whole write (read_response F) (write_response F gateway_style)
    read_meta_response (write_meta_response gateway_style) time status_of.
