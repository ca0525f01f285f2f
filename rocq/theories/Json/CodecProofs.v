(** The concrete libraries meet what the properties of the client over HTTP ask of them. *)
From Coq Require Import Ascii String.
From stdpp Require Import prelude strings list gmap.
From Verif.Base Require Import GoInt Envelope Str UrlProofs Dec.
From Verif.Marshaler Require Import Model.
From Verif.Http Require Import Model Spec.
From Verif.Json Require Import Text Spec TextProofs ValueProofs Pb SpecPb PbProofs MessageProofs Codec.
Open Scope string_scope.
Open Scope list_scope.
Open Scope Z_scope.
#[local] Arguments String.append : simpl nomatch.

Lemma status_errors F time : errors_not_200 (go_codec F time).
Proof.
  intros code H. cbn [http_status go_codec]. unfold status_of. destruct (Z.eqb_spec code 0); [done|].
  repeat (match goal with |- context [if ?b then _ else _] => destruct b; [done|] end). done.
Qed.

(** ** The info page *)
Lemma plain_all s : plain s -> str_all plain_byte s = true /\ utf8 s.
Proof.
  induction s as [|c s IH]; intros H; [split; [done|constructor]|]. destruct (H "" c s eq_refl) as (H1 & H2 & H3).
  destruct IH as [Ha Hu]; [intros a d b ->; by apply (H (String c a) d b)|]. split.
  - cbn. rewrite Ha, andb_true_r. unfold plain_byte, ceqb. rewrite !andb_true_iff, !negb_true_iff, Nat.leb_le. split; [split|lia];
      apply bool_decide_eq_false; intros ->; [by apply H2|by apply H3].
  - apply utf8_1; [|done]. unfold range. lia.
Qed.
Lemma read_plain s r : plain s -> read_string (append s (String dquote r)) = Some (s, r).
Proof.
  intros H. destruct (plain_all s H) as [Ha Hu]. unfold read_string. rewrite (scans_plain s Ha).
  change (scan (String dquote r)) with (Some ("", r)). cbn. rewrite append_nil. unfold unquote.
  destruct (stands_plain s Ha "" [] eq_refl) as (l & E & R). rewrite append_nil in E. rewrite E. cbn. rewrite R. cbn.
  rewrite append_nil. f_equal. f_equal. by apply utf8_iff.
Qed.
Lemma skip_quote s : skip (String dquote s) = String dquote s.
Proof. done. Qed.
Lemma pair_reads n k s d r : plain k -> plain s -> d = ","%char \/ d = "}"%char ->
  members (S (S n)) (String dquote (append k (String dquote (String ":" (String dquote (append s (String dquote (String d r)))))))) =
  if ceqb d "," then '(l, r) ← members (S n) r; Some ((k, JStr s) :: l, r) else Some ([(k, JStr s)], r).
Proof.
  intros Hk Hs Hd. remember (S n) as m. cbn [members]. rewrite skip_quote. change (ceqb dquote dquote) with true. cbn iota.
  rewrite read_plain by done. cbn [mbind option_bind]. change (skip (String ":" ?x)) with (String ":" x). cbn iota.
  change (ceqb ":" ":") with true. cbn iota. subst m. remember (S n) as m. rewrite Heqm at 1. cbn [value]. rewrite skip_quote. change (ceqb dquote dquote) with true. cbn iota.
  rewrite read_plain by done. cbn [mbind option_bind]. by destruct Hd as [-> | ->].
Qed.
Lemma reads_two F time : reads_info (go_codec F time).
Proof.
  intros k1 s1 k2 s2 H1 H2 H3 H4. cbn [first_json go_codec]. unfold read_first.
  assert (exists n, enough (two_strings k1 s1 k2 s2) = S (S (S (S n)))) as [n ->].
  { unfold enough, two_strings. simpl. eexists. rewrite Nat.add_succ_r. reflexivity. }
  assert (E : two_strings k1 s1 k2 s2 = String "{" (String dquote (append k1 (String dquote (String ":" (String dquote (append s1 (String dquote (String "," (String dquote (append k2 (String dquote (String ":" (String dquote (append s2 (String dquote (String "}" (String (ascii_of_nat 10) "")))))))))))))))))).
  { unfold two_strings, quoted. simpl. by rewrite !append_assoc. }
  rewrite E. clear E. remember (S (S n)) as m. cbn [value]. change (skip (String "{" ?x)) with (String "{" x). cbn iota.
  change (ceqb "{" dquote) with false. change (ceqb "{" "[") with false. change (ceqb "{" "{") with true. cbn iota. rewrite skip_quote. 
  change (ceqb dquote "}") with false. cbn iota. subst m. rewrite pair_reads by auto. change (ceqb "," ",") with true. cbn iota.
  rewrite pair_reads by auto. done.
Qed.

(** ** Query results *)
Section Results.
Context (L : lib) (HL : go_lib L).
Lemma clean_ok s : utf8 (clean L s).
Proof. destruct HL as (Hc & _ & _). rewrite Hc. apply clean_utf8. Qed.
Lemma writable_point p j : assemble_point L p = Some j -> writable j.
Proof.
  unfold assemble_point. destruct (parse_float L (get_time L p)) as [t|]; [|done]. cbn. destruct (finite L t) eqn:E; [|done].
  destruct p as [p|]; [|done]. cbn. intros [= <-]. destruct HL as (_ & H3 & Hs). repeat constructor; auto.
Qed.
Lemma writable_metric m : writable (enc_metric L m).
Proof. constructor. apply Forall_fmap, Forall_forall. intros kv _. cbn. split; [apply clean_ok|constructor; apply clean_ok]. Qed.
Lemma writable_mapM {A} (f : A -> option json) l js : (forall a j, f a = Some j -> writable j) -> mapM f l = Some js -> Forall writable js.
Proof.
  intros H Hm. apply mapM_Some in Hm. induction Hm as [|a j l js Ha _ IH]; constructor; [by eapply H|done].
Qed.
Ltac field_name := by apply utf8_iff.
Lemma writable_sample s j : enc_sample L s = Some j -> writable j.
Proof.
  unfold enc_sample. destruct (assemble_point L _) as [p|] eqn:E; [|done]. cbn. intros [= <-]. constructor.
  constructor; [split; [field_name|apply writable_metric]|]. constructor; [|done]. split; [field_name|]. by eapply writable_point.
Qed.
Lemma writable_series s j : enc_series L s = Some j -> writable j.
Proof.
  unfold enc_series. destruct (mapM _ _) as [ps|] eqn:E; [|done]. cbn. intros [= <-]. apply writable_mapM in E; [|apply writable_point].
  constructor. constructor; [split; [field_name|apply writable_metric]|]. constructor; [|done]. split; [field_name|]. cbn.
  destruct ps; by constructor.
Qed.
Lemma writable_marshal a j : marshal L a = Some j -> writable j.
Proof.
  assert (Hok : forall ty r, utf8 ty -> writable r ->
    writable (JObj [("status", JStr "success"); ("data", JObj [("resultType", JStr ty); ("result", r)])])).
  { intros ty r Ht Hr. constructor. constructor; [split; [field_name|constructor; field_name]|]. constructor; [|done]. split; [field_name|].
    constructor. constructor; [split; [field_name|by constructor]|]. constructor; [|done]. split; [field_name|done]. }
  destruct a as [r|]; cbn [marshal].
  - destruct r as [p|v|m]; unfold scalar_data, vector_data, matrix_data.
    + destruct (assemble_point L p) as [x|] eqn:E; [|done]. cbn. intros [= <-]. apply Hok; [field_name|by eapply writable_point].
    + destruct (mapM _ _) as [x|] eqn:E; [|done]. cbn. intros [= <-]. apply Hok; [field_name|]. constructor.
      eapply writable_mapM; [|done]. apply writable_sample.
    + destruct (mapM _ _) as [x|] eqn:E; [|done]. cbn. intros [= <-]. apply Hok; [field_name|]. constructor.
      eapply writable_mapM; [|done]. apply writable_series.
  - intros [= <-]. constructor. constructor; [split; [field_name|constructor; field_name]|]. constructor; [|done]. split; [field_name|].
    constructor. constructor; [|done]. split; [field_name|constructor; field_name].
Qed.
Lemma writable_error msg : writable (error_doc L msg).
Proof.
  constructor. repeat (constructor; [split; [field_name|]|]); [constructor; field_name|constructor; field_name|constructor; apply clean_ok|constructor].
Qed.
Lemma whole_written j : writable j -> read_whole (write j) = Some j.
Proof.
  intros H. destruct (writable_numeric j H) as [Hn Ht]. rewrite <-(append_nil (write j)). rewrite whole_write by done. by rewrite Ht.
Qed.
Lemma first_written j : writable j -> read_first (write j) = Some j.
Proof. intros H. rewrite <-(append_nil (write j)). by apply read_written. Qed.
Lemma reads_all F time : reads_results (go_codec F time) L.
Proof.
  split; cbn [first_json whole_json write_json go_codec].
  - intros a j Hj. apply writable_marshal in Hj. split; [by apply first_written|by apply whole_written].
  - intros msg. apply whole_written, writable_error.
Qed.
End Results.
Lemma envelopes_back F time l : exact_floats F -> Forall sendable l ->
  read_envelopes (go_codec F time) (write_envelopes (go_codec F time) l) = Some l.
Proof. intros HF Hl. cbn [read_envelopes write_envelopes go_codec]. rewrite <-(append_nil (write_response _ _ _)). by apply read_write_response. Qed.
Lemma meta_back F time m st : sendable_meta m -> read_meta (go_codec F time) (write_meta_response st m) = Some m.
Proof. intros Hm. cbn [read_meta go_codec]. rewrite <-(append_nil (write_meta_response _ _)). by apply read_write_meta. Qed.
