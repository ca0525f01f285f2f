(** Model of the proxy's access log: internal/auth/access_log.go, access_logger.go and
    access_middleware.go.  Text is bytes. *)
From Coq Require Import Ascii String.
From stdpp Require Import prelude strings list.
From Verif.Base Require Import GoInt Str Dec.
Open Scope string_scope.
Open Scope list_scope.
Open Scope Z_scope.

(** What the log looks at in a net/http Request: URL.Path (percent-decoded), URL.RawQuery, Method, the
    first values of the headers X-Vcap-Request-ID and X-Forwarded-For ("" if absent), RemoteAddr *)
Record areq := AReq {
  a_path : string; a_query : string; a_method : string; a_id : string; a_forwarded : string; a_remote : string }.

(** html/template's escaper for text: htmlReplacementTable of the Go standard library.  It works rune by
    rune, which for this table is byte by byte. *)
Definition escape_byte (c : ascii) : string :=
  let n := nat_of_ascii c in
  if (n =? 0)%nat then String (ascii_of_nat 239) (String (ascii_of_nat 191) (String (ascii_of_nat 189) ""))
  else if (n =? 34)%nat then "&#34;"
  else if (n =? 38)%nat then "&amp;"
  else if (n =? 39)%nat then "&#39;"
  else if (n =? 43)%nat then "&#43;"
  else if (n =? 60)%nat then "&lt;"
  else if (n =? 62)%nat then "&gt;"
  else String c "".
Fixpoint html_escape (s : string) : string :=
  match s with
  | EmptyString => ""
  | String c s => append (escape_byte c) (html_escape s)
  end.

(** net.SplitHostPort of the Go standard library; None is an error.  cut_last cuts at the last ':' *)
Fixpoint cut_last (c : ascii) (s : string) : option (string * string) :=
  match s with
  | EmptyString => None
  | String d s' =>
      match cut_last c s' with
      | Some (a, b) => Some (String d a, b)
      | None => if ceqb c d then Some ("", s') else None
      end
  end.
Definition split_host_port (s : string) : option (string * string) :=
  match cut_last ":" s with
  | None => None
  | Some (host, port) =>
      match s with
      | String "[" s' =>
          match cut "]" s' with
          | Some (host, String ":" port) =>
              if has_char ":" port || has_char "[" s' || has_char "]" port then None else Some (host, port)
          | _ => None
          end
      | _ => if has_char ":" host || has_char "[" s || has_char "]" s then None else Some (host, port)
      end
  end.

(** access_log.go:72-92 extractRemoteInfo *)
Definition before_comma (s : string) : string := match cut "," s with Some (a, _) => a | None => s end.
Definition remote_info (r : areq) : string * string :=
  let addr := before_comma (a_forwarded r) in
  let addr := if bool_decide (addr = "") then a_remote r else addr in
  let addr := if has_char ":" addr then addr else append addr ":" in
  default ("", "") (split_host_port addr).

(** access_log.go:94-96 toMillis; [now] is UnixNano *)
Definition to_millis (now : Z) : Z := Z.quot now 1000000.

(** access_log.go:47-50 *)
Definition full_path (r : areq) : string :=
  if bool_decide (a_query r = "") then a_path r else append (a_path r) (String "?" (a_query r)).

(** access_log.go:45-70 String, with the template of 98-128.  Executing it cannot fail: every field is a
    string or an integer. *)
Definition cef (r : areq) (now : Z) (host port : string) : string :=
  let '(remote_host, remote_port) := remote_info r in
  let e := html_escape in
  let request := append (e (a_method r)) (append " " (e (full_path r))) in
  append "CEF:" (join "|"
    ["0"; "cloud_foundry"; "log_cache"; "1.0"; request; request; "0";
     join " "
       [append "rt=" (format_int (to_millis now));
        "cs1Label=userAuthenticationMechanism";
        "cs1=oauth-access-token";
        "cs2Label=vcapRequestId";
        append "cs2=" (e (a_id r));
        append "request=" (e (full_path r));
        append "requestMethod=" (e (a_method r));
        append "src=" (e remote_host);
        append "spt=" (e remote_port);
        append "dst=" (e host);
        append "dpt=" (e port)]]).

(** access_logger.go:19-23 LogAccess: the bytes of its one Write *)
Definition newline : ascii := ascii_of_nat 10.
Definition log_access (r : areq) (now : Z) (host port : string) : string := append (cef r now host port) (String newline "").
