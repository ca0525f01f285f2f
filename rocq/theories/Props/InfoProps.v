(** C189: the info page.  Vocabulary: Json/Spec.v (utf8), Base/Dec.v (signed_numeral), Http/Spec.v (is_err, lost), and [literal] below.
    Programs: Http/Model.v (info_doc, vm_uptime), Json/Text.v (read_whole, read_first: encoding/json). *)
From Coq Require Import Ascii String.
From stdpp Require Import prelude strings list gmap.
From Verif.Base Require Import GoInt Envelope Str UrlProofs Url Dec.
From Verif.Marshaler Require Import Model.
From Verif.Gateway Require Import Model Spec.
From Verif.Http Require Import Model Spec Proofs Proofs2.
From Verif.Json Require Import Text Spec TextProofs ValueProofs Pb SpecPb PbProofs MessageProofs Codec CodecProofs.
From Verif.Props Require Import MarshalerProps GatewayProps HttpProps JsonProps.
Local Open Scope string_scope.
Local Open Scope list_scope.
Local Open Scope Z_scope.
#[local] Arguments String.append : simpl nomatch.

(** text without quotes, backslashes and control characters *)
Definition literal (s : string) : Prop := forall a c b, s = append a (String c b) ->
  (32 <= nat_of_ascii c)%nat /\ nat_of_ascii c <> 34%nat /\ nat_of_ascii c <> 92%nat.

Lemma literal_all s : literal s -> str_all plain_byte s = true.
Proof.
  induction s as [|c s IH]; intros H; [done|]. destruct (H "" c s eq_refl) as (H1 & H2 & H3).
  cbn. rewrite IH, andb_true_r; [|intros a d b ->; by apply (H (String c a) d b)]. unfold plain_byte, ceqb. rewrite !andb_true_iff, !negb_true_iff, Nat.leb_le.
  split; [split|lia]; apply bool_decide_eq_false; intros ->; [by apply H2|by apply H3].
Qed.
Lemma plain_literal s : plain s -> literal s.
Proof. intros H a c b E. destruct (H a c b E) as (? & ? & ?). split; [lia|done]. Qed.
Lemma read_literal s r : literal s -> utf8 s -> read_string (append s (String dquote r)) = Some (s, r).
Proof.
  intros H Hu. pose proof (literal_all s H) as Ha. unfold read_string. rewrite (scans_plain s Ha).
  change (scan (String dquote r)) with (Some ("", r)). cbn. rewrite append_nil. unfold unquote.
  destruct (stands_plain s Ha "" [] eq_refl) as (l & E & R). rewrite append_nil in E. rewrite E. cbn. rewrite R. cbn.
  rewrite append_nil. f_equal. f_equal. by apply utf8_iff.
Qed.
Lemma pair_literal n k s d r : plain k -> literal s -> utf8 s -> d = ","%char \/ d = "}"%char ->
  members (S (S n)) (String dquote (append k (String dquote (String ":" (String dquote (append s (String dquote (String d r)))))))) =
  if ceqb d "," then '(l, r) ← members (S n) r; Some ((k, JStr s) :: l, r) else Some ([(k, JStr s)], r).
Proof.
  intros Hk Hs Hu Hd. remember (S n) as m. cbn [members]. rewrite skip_quote. change (ceqb dquote dquote) with true. cbn iota.
  rewrite read_plain by done. cbn [mbind option_bind]. change (skip (String ":" ?x)) with (String ":" x). cbn iota.
  change (ceqb ":" ":") with true. cbn iota. subst m. remember (S n) as m. rewrite Heqm at 1. cbn [value]. rewrite skip_quote. change (ceqb dquote dquote) with true. cbn iota.
  rewrite read_literal by done. cbn [mbind option_bind]. by destruct Hd as [-> | ->].
Qed.
Lemma info_value v u n : literal v -> utf8 v -> int64 u ->
  value (S (S (S (S n)))) (info_doc v u) = Some (JObj [("version", JStr v); ("vm_uptime", JStr (format_int u))], String (ascii_of_nat 10) "").
Proof.
  intros H Hu Hi. pose proof (plain_int u Hi) as Hp. destruct (plain_all _ Hp) as [_ Hpu].
  change (info_doc v u) with (String "{" (String dquote (append "version" (String dquote (String ":" (String dquote (append v (String dquote (String "," (String dquote (append "vm_uptime" (String dquote (String ":" (String dquote (append (format_int u) (String dquote (String "}" (String (ascii_of_nat 10) "")))))))))))))))))).
  remember (S (S n)) as m. cbn [value]. change (skip (String "{" ?x)) with (String "{" x). cbn iota.
  change (ceqb "{" dquote) with false. change (ceqb "{" "[") with false. change (ceqb "{" "{") with true. cbn iota. rewrite skip_quote.
  change (ceqb dquote "}") with false. cbn iota. subst m. rewrite pair_literal; [|apply plain_names; by left|done|done|by left]. change (ceqb "," ",") with true. cbn iota.
  rewrite pair_literal; [done|apply plain_names; by right|by apply plain_literal|done|by right].
Qed.
Lemma info_enough v u : exists n, enough (info_doc v u) = S (S (S (S n))).
Proof. unfold enough, info_doc. simpl. eexists. rewrite Nat.add_succ_r. reflexivity. Qed.

(** ** C189 *)
(** The page is one JSON document that gives the version as it was set and the uptime in decimal.  Missing: versions with quotes, backslashes or
    control characters, for which it is not so. *)
Theorem C189_page_partial : forall v u, utf8 v -> literal v -> int64 u -> exists s,
  read_whole (info_doc v u) = Some (JObj [("version", JStr v); ("vm_uptime", JStr s)]) /\ signed_numeral s u.
Proof.
  intros v u Hv Hl Hu. exists (format_int u). destruct (info_enough v u) as [n E]. unfold read_whole. rewrite E, info_value by done.
  split; [done|]. apply parse_int_spec. by apply parse_format_int.
Qed.
Print Assumptions C189_page_partial.
(** And through it clients are given the gateway's uptime, whatever characters else the version has: C127_uptime_json is about printable ASCII. *)
Theorem C189_uptime_partial : forall F time L W, (forall u, g_uptime W u -> int64 u) ->
  forall tr r, utf8 (g_version W) -> literal (g_version W) -> talks (answers (go_codec F time) L W) (vm_uptime (go_codec F time)) tr r ->
  (is_err r /\ lost tr) \/ exists u, g_uptime W u /\ r = Ok u.
Proof.
  intros F time L W HU tr r Hv Hl (o & -> & [->|(u & Hu & ->)]%answers_info & Hr)%uptime_talks.
  - left. split; [|eexists; left]. destruct r as [u|e]; [|by eexists]. by destruct (proj1 (Hr u) eq_refl) as (? & ? & ? & _).
  - right. exists u. split; [done|]. apply Hr. eexists _, (format_int u). split; [done|]. specialize (HU _ Hu).
    split; [|apply parse_int_spec; by apply parse_format_int]. destruct (info_enough (g_version W) u) as [n E]. exists [("version", JStr (g_version W)); ("vm_uptime", JStr (format_int u))]. split; [|done].
    cbn [first_json go_codec]. unfold read_first. by rewrite E, info_value.
Qed.
Print Assumptions C189_uptime_partial.

(** The version is not escaped: with a quote in it the page is no document ... *)
Theorem C189_page_refuted : ~ forall v u, utf8 v -> int64 u -> is_Some (read_whole (info_doc v u)).
Proof.
  intros H. destruct (H "2.9.0 ""beta""" 5) as [x E]; [|done|vm_compute in E; discriminate E]. repeat (apply utf8_1; [by split; apply Nat.leb_le|]). constructor.
Qed.
Print Assumptions C189_page_refuted.
(** ... with a line break neither ... *)
Theorem C189_control_refuted : ~ forall v u, utf8 v -> (forall a b, v <> append a (String """" b)) -> int64 u -> is_Some (read_whole (info_doc v u)).
Proof.
  intros H. destruct (H (String "010" "2.9.0") 5) as [x E]; [|intros a b; do 7 (destruct a as [|? a]; [discriminate|]; cbn; intros [= _ E]; revert E); by destruct a|done|vm_compute in E; discriminate E].
  repeat (apply utf8_1; [by split; apply Nat.leb_le|]). constructor.
Qed.
Print Assumptions C189_control_refuted.
(** ... and there are versions with which clients are given another uptime. *)
Definition a_version : string := "2.9.0"",""vm_uptime"":""0""}".
Definition odd_gateway : gateway example_lib :=
  Gateway example_lib (gw true true) a_version (fun u => u = 5) (fun _ _ => False) (fun _ _ => False) (fun _ _ => False) (fun _ _ => False).
Theorem C189_uptime_refuted : ~ forall F time L W, (forall u, g_uptime W u -> int64 u) -> utf8 (g_version W) ->
  forall tr r, talks (answers (go_codec F time) L W) (vm_uptime (go_codec F time)) tr r ->
  is_err r \/ exists u, g_uptime W u /\ r = Ok u.
Proof.
  intros H. destruct (H bit_floats format_int example_lib odd_gateway) with (tr := [(("/api/v1/info", ""), Some (200, info_doc a_version 5))]) (r := @Ok Z 0) as [[e E]|(u & -> & E)].
  - intros u ->. done.
  - repeat (apply utf8_1; [by split; apply Nat.leb_le|]). constructor.
  - eapply talks_get; [apply (an_info _ _ odd_gateway _ 5); [|done]; eexists; split; [reflexivity|done]|].
    match goal with |- talks _ (Ret ?x) _ _ => replace x with (@Ok Z 0) by (vm_compute; reflexivity) end. constructor.
  - discriminate E.
  - discriminate E.
Qed.
Print Assumptions C189_uptime_refuted.

(** A version that is not ASCII. *)
Example C189_case : utf8 "2.9.0+é" /\ literal "2.9.0+é" /\ read_whole (info_doc "2.9.0+é" (-7)) = Some (JObj [("version", JStr "2.9.0+é"); ("vm_uptime", JStr "-7")]).
Proof.
  split; [|split]; [do 6 (apply utf8_1; [by split; apply Nat.leb_le|]); apply utf8_2; [by split; apply Nat.leb_le..|constructor]| |by vm_compute].
  intros a c b. do 8 (destruct a as [|? a]; [intros [= <- _]; split; [by apply Nat.leb_le|by vm_compute]|]; cbn; intros [= _ E]; revert E). by destruct a.
Qed.
