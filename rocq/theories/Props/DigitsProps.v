(** C187: decimals come out as they went in, up to fifteen digits.  Vocabulary: Float/SpecDigits.v (up_to, same_number, ...),
    Auth/SpecDocs.v (stands_for), Syslog/SpecMessage.v and Syslog/Spec.v (says).  Programs: Float/Model.v and Float/Parse.v (the
    texts of numbers), Float/Gauge.v (the value of a gauge), Syslog/Message.v, Syslog/Octet.v and Syslog/Model.v. *)
From Coq Require Import Ascii String.
From stdpp Require Import prelude gmap strings list.
From Verif.Base Require Import GoInt Envelope Str Dec.
From Verif.Auth Require Import Docs SpecDocs DocsMore.
From Verif.Json Require Import Spec Pb.
From Verif.Times Require Import Texts SpecTexts Calendar TextsProofs.
From Verif.Syslog Require Import Model Spec Proofs Octet SpecOctet OctetProofs Message SpecMessage MessageProofs MessageMore.
From Verif.Props Require Import SyslogProps OctetProps MessageTextProps.
From Verif.Float Require Import Model Spec Proofs Nearest Short Parse ParseProofs SpecDigits Gauge Fifteen GaugeProofs.
Local Open Scope string_scope.
Local Open Scope Z_scope.

(** a number is plain ASCII *)
Fixpoint ascii_only (s : string) : Prop := match s with EmptyString => True | String c r => (nat_of_ascii c < 128)%nat /\ ascii_only r end.
Lemma ascii_utf8 s : ascii_only s -> utf8 s.
Proof. induction s as [|c s IH]; [constructor|]. intros [H1 H2]. apply utf8_1; [split; cbn; lia|by apply IH]. Qed.
Lemma ascii_app s t : ascii_only s -> ascii_only t -> ascii_only (append s t).
Proof. intros Hs Ht. induction s as [|c s IH]; [done|]. destruct Hs as [H1 H2]. split; [done|by apply IH]. Qed.
Lemma ascii_digit c : is_digit c = true -> (nat_of_ascii c < 128)%nat.
Proof. unfold is_digit. intros H. apply andb_prop in H as [_ H]. apply Nat.leb_le in H. lia. Qed.
Lemma ascii_numeral s n : numeral s n -> ascii_only s.
Proof. induction 1 as [c H|s n c _ IH H]; [by split; [apply ascii_digit|]|]. apply ascii_app; [done|]. by split; [apply ascii_digit|]. Qed.
Lemma ascii_decimal s n k : decimal_text s n k -> ascii_only s.
Proof.
  intros [s' n' H|s' f n' i x H1 H2 _]; [by eapply ascii_numeral|]. apply ascii_app; [by eapply ascii_numeral|]. split; [by apply Nat.ltb_lt|by eapply ascii_numeral].
Qed.
Lemma ascii_number s n k : stands_for s n k -> ascii_only s.
Proof.
  assert (E : forall e : ascii, e = "e"%char \/ e = "E"%char -> (nat_of_ascii e < 128)%nat) by (intros e [->| ->]; by apply Nat.ltb_lt).
  intros [s' n' k' H|s' n' k' e x v H He Hx|s' n' k' e x v H He Hx|s' n' k' e x v H He Hx]; [by eapply ascii_decimal|..]; (apply ascii_app; [by eapply ascii_decimal|]);
    (split; [by apply E|]); [|split; [by apply Nat.ltb_lt|]..]; by eapply ascii_numeral.
Qed.

Lemma gauge_names : Forall name ["name"; "unit"; "value"].
Proof. repeat (apply Forall_cons; split; [split; [by apply (bytes_all_iff name_byte); [apply name_byte_iff|]|cbn; lia]|]). apply Forall_nil. done. Qed.

(** ** C187 *)
(** What a number of a document becomes if it is read and written again: the same number, if it has up to fifteen digits. *)
Theorem C187_document_partial : forall neg t, up_to 15 t -> not_huge t -> not_tiny t ->
  exists b t', read_go (signed neg t) = Some b /\ write_go b = signed neg t' /\ same_number t t'.
Proof.
  intros neg t H1 H2 H3. destruct (fifteen_short t H1 H2 H3) as (m & k & b & T & R & Mb & Hb & E & _). destruct neg; cbn [signed].
  - exists (2^63 + b), (write_go b). rewrite (read_signed t m k T), R. split; [done|]. split; [by apply write_sign|done].
  - exists b, (write_go b). by rewrite (read_unsigned t m k T).
Qed.
Print Assumptions C187_document_partial.
(** The same for a value of a query result. *)
Theorem C187_result_partial : forall neg t, up_to 15 t -> not_huge t -> not_tiny t ->
  exists f t', parse_go (signed neg t) = Some f /\ short_go f = signed neg t' /\ same_number t t'.
Proof.
  intros neg t H1 H2 H3. destruct (fifteen_short t H1 H2 H3) as (m & k & b & T & R & Mb & Hb & _ & E). rewrite (stands_signed neg t m k T), R. cbn [mbind option_bind].
  unfold finite_of. destruct (decide _) as [H|H]; [|by destruct H; apply bool_decide_pack]. eexists _, _. split; [reflexivity|]. cbn [short_go proj1_sig].
  replace (b =? 0) with false by (symmetry; apply Z.eqb_neq; lia). split; [reflexivity|done].
Qed.
Print Assumptions C187_result_partial.
(** The value of a gauge: what is written of it is the number in the syslog message, sign and all, if that has up to fifteen digits. *)
Theorem C187_value_partial : forall neg t, up_to 15 t -> not_huge t -> not_tiny t ->
  exists b t', gauge_float (signed neg t) = Some b /\ write_go b = signed neg t' /\ same_number t t'.
Proof.
  intros neg t H1 H2 H3. destruct (fifteen_short t H1 H2 H3) as (m & k & b & T & R & Mb & Hb & E & _). unfold gauge_float. rewrite (stands_signed neg t m k T), R. cbn [mbind option_bind].
  unfold finite_of. destruct (decide _) as [H|H]; [|by destruct H; apply bool_decide_pack]. cbn. eexists _, (write_go b). split; [reflexivity|]. destruct neg; [|done]. split; [by apply write_sign|done].
Qed.
Print Assumptions C187_value_partial.
(** So a gauge that comes in a syslog message is in the envelope with a value that HTTP clients see as the number in the message: C181_metric
    with ParseFloat written out. *)
Theorem C187_gauge_partial : forall order send_ok size closed pri p tm t host app pid ty inst mid suffix nm unit neg v tx x f,
  let ps := [("name", nm); ("unit", unit); ("value", signed neg v)] in
  any_order order -> Z.of_nat size < 2^63 ->
  priority pri p -> stamp tm t -> in64 t -> word 255 host -> word 48 app -> app <> "-" -> word 128 pid -> pid <> "-" ->
  process_id pid ty inst -> word 32 mid -> text tx x -> name ("gauge" ++ suffix) -> utf8 nm -> utf8 unit ->
  up_to 15 v -> not_huge v -> not_tiny v ->
  frame (metric_line pri tm host app pid mid ("gauge" ++ suffix) ps tx) f ->
  (String.length (metric_line pri tm host app pid mid ("gauge" ++ suffix) ps tx) <= size)%nat ->
  exists b v', sv_sent (serve gauge_float order send_ok (octets size parse_message closed f).1) =
      [mk_env t app inst ∅ ∅ (MGauge {[ nm := mk_gv unit b ]})] /\
    write_go b = signed neg v' /\ same_number v v'.
Proof.
  intros order send_ok size closed pri p tm t host app pid ty inst mid suffix nm unit neg v tx x f ps Ho Hsz Hp Ht Hin Hh Ha Hna Hq Hnq Hpid Hi Hx Hk Hnm Hu H1 H2 H3 Hf Hl.
  destruct (C187_value_partial neg v H1 H2 H3) as (b & v' & E1 & E2 & E3). exists b, v'. split; [|done].
  eapply (C181_metric gauge_float order send_ok size closed pri p tm t host app pid ty inst mid ("gauge" ++ suffix) ps tx x); try done.
  - assert (Hv : utf8 (signed neg v)). { destruct H1 as (m & k & T & _). apply ascii_utf8. pose proof (ascii_number _ _ _ T). destruct neg; [split; [by apply Nat.ltb_lt|done]|done]. }
    pose proof gauge_names as Hn.
    inversion_clear Hn as [|? ? N1 Hn']. inversion_clear Hn' as [|? ? N2 Hn'']. inversion_clear Hn'' as [|? ? N3 _]. repeat (apply Forall_cons; split; [done|]). apply Forall_nil. done.
  - assert (Em : list_to_map (reverse ps) = (<["value" := signed neg v]> (<["unit" := unit]> {["name" := nm]}) : gmap string string)) by done. rewrite Em.
    set (M := <["value" := signed neg v]> (<["unit" := unit]> {["name" := nm]})).
    assert (En : nm = param M "name") by (unfold param, M; rewrite !lookup_insert_ne by done; by rewrite lookup_singleton).
    assert (Eg : MGauge {[nm := mk_gv unit b]} = MGauge {[param M "name" := mk_gv unit b]}) by (by rewrite <-En).
    rewrite Eg. apply says_gauge; [unfold M; rewrite lookup_insert_ne by done; by rewrite lookup_insert|]. unfold param, M. by rewrite lookup_insert.
Qed.
Print Assumptions C187_gauge_partial.

(** What is no number but has a value: infinities, with a sign or without, and NaN, in capitals or small letters. *)
Lemma small_lowered w s : any_case w s -> Forall (fun c => (97 <= nat_of_ascii c <= 122)%nat) (list_ascii_of_string w) -> lowered s = w.
Proof.
  induction 1 as [|c w s H IH|c c' w s H1 H2 H IH]; intros F; [done|..]; cbn [list_ascii_of_string] in F; inversion_clear F as [|? ? F1 F2]; cbn [lowered]; rewrite (IH F2); f_equal.
  - destruct (Nat.leb_spec (nat_of_ascii c) 90); [lia|]. by rewrite andb_false_r.
  - destruct (Nat.leb_spec 65 (nat_of_ascii c')), (Nat.leb_spec (nat_of_ascii c') 90); try lia. cbn [andb]. rewrite <-H2. apply ascii_nat_embedding.
Qed.
Theorem C187_words : forall s,
  (any_case "inf" s \/ any_case "infinity" s -> gauge_float s = Some inf /\ gauge_float (String "+" s) = Some inf /\ gauge_float (String "-" s) = Some minus_inf) /\
  (any_case "nan" s -> gauge_float s = Some nan).
Proof.
  intros s. assert (W : forall w, w ∈ ["inf"; "infinity"; "nan"] -> any_case w s -> lowered s = w).
  { intros w Hw Hc. apply (small_lowered w s Hc). repeat (apply elem_of_cons in Hw as [->|Hw]; [cbn [list_ascii_of_string]; repeat (apply Forall_cons; split; [split; apply Nat.leb_le; by vm_compute|]); by apply Forall_nil|]). by apply elem_of_nil in Hw. }
  assert (P : forall w c, w ∈ ["inf"; "infinity"; "nan"] -> any_case w s -> c = "-"%char \/ c = "+"%char -> forall r, s <> String c r).
  { intros w c Hw Hc Hs r ->. apply W in Hc; [|done]. destruct Hs as [->| ->]; cbn in Hc; repeat (apply elem_of_cons in Hw as [->|Hw]; [discriminate Hc|]); by apply elem_of_nil in Hw. }
  assert (R : forall w, w ∈ ["inf"; "infinity"; "nan"] -> any_case w s -> parse_go s = if bool_decide (lowered s = "nan") then Some NotANumber else parse_unsigned false s).
  { intros w Hw Hc. destruct s as [|c r]; [apply W in Hc; [|done]; cbn in Hc; subst w; repeat (apply elem_of_cons in Hw as [Hw|Hw]; [discriminate Hw|]); by apply elem_of_nil in Hw|].
    unfold parse_go. replace (ceqb c "-") with false; [replace (ceqb c "+") with false; [done|]|]; symmetry; apply bool_decide_eq_false; intros ->; [by apply (P w "+"%char Hw Hc (or_intror eq_refl) r)|by apply (P w "-"%char Hw Hc (or_introl eq_refl) r)]. }
  split.
  - intros H. assert (H' : exists w, w ∈ ["inf"; "infinity"; "nan"] /\ any_case w s /\ (w = "inf" \/ w = "infinity")) by (destruct H; eexists; (split; [|split; [done|auto]]); set_solver).
    destruct H' as (w & Hw & Hc & Hi). pose proof (W w Hw Hc) as E.
    assert (U : forall neg, parse_unsigned neg s = Some (Infinite neg)) by (intros neg; unfold parse_unsigned; rewrite E; by destruct Hi as [->| ->]).
    unfold gauge_float. rewrite (R w Hw Hc), E. split; [destruct Hi as [->| ->]; cbn; by rewrite U|]. cbn [parse_go]. replace (ceqb "+" "-") with false by done. replace (ceqb "+" "+") with true by done. replace (ceqb "-" "-") with true by done.
    by rewrite !U.
  - intros Hc. assert (Hw : "nan" ∈ ["inf"; "infinity"; "nan"]) by set_solver. unfold gauge_float. rewrite (R _ Hw Hc), (W _ Hw Hc). by vm_compute.
Qed.
Print Assumptions C187_words.

(** And these are all texts that have a value: a decimal in range, with or without a sign, is the nearest float64, of two as near the even one; the
    words above; nothing else is read.  (In Go also hexadecimal numbers, see Float/Parse.v.) *)
Theorem C187_reads : forall s v, gauge_float s = Some v <-> go_value s v.
Proof. exact go_value_iff. Qed.
Print Assumptions C187_reads.

(** Not with sixteen digits: 2^53 + 1 is a gauge's value and comes out as 2^53. *)
Theorem C187_sixteen_refuted : ~ forall t, up_to 16 t -> not_huge t -> not_tiny t ->
  exists b t', gauge_float t = Some b /\ write_go b = t' /\ same_number t t'.
Proof.
  intros H. assert (T : stands_for "9007199254740993" 9007199254740993 0) by (apply (nt_plain _ _ 0), dt_whole, digits_numeral; by vm_compute).
  destruct (H "9007199254740993") as (b & t' & E1 & <- & E2).
  - eexists _, _. split; [exact T|]. exists 9007199254740993, 0. by vm_compute.
  - eexists _, _. split; [exact T|]. unfold out_of_range. apply Z.lt_nge. by vm_compute.
  - eexists _, _. split; [exact T|]. by vm_compute.
  - assert (E : gauge_float "9007199254740993" = Some 4845873199050653696) by (vm_compute; reflexivity). rewrite E in E1. injection E1 as <-.
    assert (W : write_go 4845873199050653696 = "9007199254740992") by (vm_compute; reflexivity). rewrite W in E2.
    destruct E2 as (m & k & m' & k' & A1 & A2 & A3). apply stands_parses in A1, A2. vm_compute in A1, A2. injection A1 as <- <-. injection A2 as <- <-. apply Z.eqb_eq in A3. vm_compute in A3. discriminate A3.
Qed.
Print Assumptions C187_sixteen_refuted.
(** And not with fifteen where float64 has fewer bits. *)
Theorem C187_tiny_refuted : ~ forall t, up_to 15 t -> not_huge t ->
  exists b t', gauge_float t = Some b /\ write_go b = t' /\ same_number t t'.
Proof.
  intros H. assert (T : stands_for "123456789012345e-334" 123456789012345 (-334)). { apply (nt_minus "123456789012345" _ 0 "e" "334" 334); [apply dt_whole|by left|]; apply digits_numeral; by vm_compute. }
  destruct (H "123456789012345e-334") as (b & t' & E1 & <- & E2).
  - eexists _, _. split; [exact T|]. exists 123456789012345, (-334). split; [lia|reflexivity].
  - eexists _, _. split; [exact T|]. unfold out_of_range. apply Z.lt_nge. by vm_compute.
  - assert (E : gauge_float "123456789012345e-334" = Some 2499) by (vm_compute; reflexivity). rewrite E in E1. injection E1 as <-.
    assert (W : write_go 2499 = "1.2347e-320") by (vm_compute; reflexivity). rewrite W in E2.
    destruct E2 as (m & k & m' & k' & A1 & A2 & A3). apply stands_parses in A1, A2. vm_compute in A1, A2. injection A1 as <- <-. injection A2 as <- <-. apply Z.eqb_eq in A3. vm_compute in A3. discriminate A3.
Qed.
Print Assumptions C187_tiny_refuted.

(** Met by: the gauge line of a temperature, and what becomes of it; numbers of few and of fifteen digits, whole, with a point, with an
    exponent; and what is no number. *)
Definition a_gauge : string :=
  metric_line "14" "1970-01-01T00:00:00.012345+00:00" "test-hostname" "test-app-id" "[1]" "-" "gauge@47450" [("name", "t"); ("unit", "C"); ("value", "-0.100")] "".
Example C187_case :
  (up_to 15 "0.100" /\ not_huge "0.100" /\ not_tiny "0.100" /\ up_to 15 "99.9999999999999e5" /\ ~ up_to 15 "9007199254740993") /\
  (exists f, frame a_gauge f /\ sv_sent (serve gauge_float in_order (fun _ _ => true) (octets 4096 parse_message true f).1) =
     [mk_env 12345000 "test-app-id" "1" ∅ ∅ (MGauge {["t" := mk_gv "C" 13815242216921733530]})]) /\
  write_go 13815242216921733530 = "-0.1" /\ same_number "0.100" "0.1" /\
  (write_go <$> gauge_float "99.9999999999999e5") = Some "9999999.99999999" /\
  gauge_float "1_000" = None /\ gauge_float "1e999" = None /\ gauge_float "+Inf" = Some inf /\ any_case "infinity" "InFinity" /\ go_value "+.5" 4602678819172646912 /\ go_value "-5.e-1" 13826050856027422720 /\ ~ (exists v, go_value "e5" v).
Proof.
  assert (T : stands_for "0.100" 100 (-3)). { apply (nt_plain "0.100" 100 3), (dt_point "0" "100" 100 0 100); apply digits_numeral; by vm_compute. }
  split; [|split]; [split_and!| |split_and!].
  - eexists _, _. split; [exact T|]. exists 1, (-1). by vm_compute.
  - eexists _, _. split; [exact T|]. unfold out_of_range. apply Z.lt_nge. by vm_compute.
  - eexists _, _. split; [exact T|]. by vm_compute.
  - exists 999999999999999, (5 - 13). split; [|exists 999999999999999, (-8); by vm_compute].
    apply (nt_exp "99.9999999999999" 999999999999999 13 "e" "5" 5); [apply (dt_point "99" "9999999999999" _ 99 9999999999999)|by left|]; apply digits_numeral; by vm_compute.
  - intros (m & k & A & m1 & k1 & D1 & D2). apply stands_parses in A. vm_compute in A. injection A as <- <-. change (10 ^ Z.max 0 0) with 1 in D2. change (10 ^ Z.max (- 0) 0) with 1 in D2.
    destruct (Z.le_gt_cases k1 0) as [Hk|Hk].
    + replace (Z.max k1 0) with 0 in D2 by lia. pose proof (den_pos (- k1)). change (10 ^ 0) with 1 in D2. change (10 ^ 15) with 1000000000000000 in D1. lia.
    + replace (Z.max (- k1) 0) with 0 in D2 by lia. replace (Z.max k1 0) with (Z.succ (k1 - 1)) in D2 by lia. rewrite Z.pow_succ_r in D2 by lia. change (10 ^ 0) with 1 in D2. lia.
  - exists ("117 " ++ a_gauge). split; [|vm_compute; reflexivity]. exists "117". split; [|reflexivity]. split; [|done]. apply digits_numeral. vm_compute. reflexivity.
  - by vm_compute.
  - exists 100, (-3), 1, (-1). split; [done|]. split; [|by vm_compute]. apply (nt_plain "0.1" 1 1), (dt_point "0" "1" 1 0 1); apply digits_numeral; by vm_compute.
  - by vm_compute.
  - by vm_compute.
  - by vm_compute.
  - by vm_compute.
  - apply case_capital; [split; apply Nat.leb_le; by vm_compute|by vm_compute|]. apply case_small. apply case_capital; [split; apply Nat.leb_le; by vm_compute|by vm_compute|]. do 5 apply case_small. constructor.
  - apply go_value_iff. by vm_compute.
  - apply go_value_iff. by vm_compute.
  - intros [v H]. apply go_value_iff in H. vm_compute in H. discriminate H.
Qed.
