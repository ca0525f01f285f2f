(** The gateway's decoding against the vocabulary of Gateway/Spec.v. *)
From Coq Require Import Ascii String.
From stdpp Require Import prelude strings gmap list.
From Verif.Base Require Import GoInt Envelope Str Url UrlProofs Dec.
From Verif.Routing Require Import Model.
From Verif.Gateway Require Import Model Spec Proofs Decode Route.
Open Scope string_scope.
Open Scope list_scope.
Open Scope Z_scope.

Lemma numeral_fun s n n' : numeral s n -> numeral s n' -> n = n'.
Proof. intros H H'. apply numeral_digits in H. apply numeral_digits in H'. congruence. Qed.
Lemma parse_type_iff s t : parse_type s = Some t <-> type_text s t.
Proof.
  split.
  - unfold parse_type. destruct (type_value s) as [t'|] eqn:E.
    + intros [= ->]. unfold type_value in E.
      repeat (case_bool_decide as Hs; [injection E as <-; subst s; do 2 eexists; split; [|by left]; unfold api_types; repeat first [apply elem_of_list_here|apply elem_of_list_further]|clear Hs]).
      done.
    + destruct (parse_int s) as [n|] eqn:En; [|done]. cbn [mbind option_bind]. apply parse_int_spec in En as [En _].
      destruct (Z.leb_spec 0 n); [|done]. destruct (Z.leb_spec n 5); [|done]. cbn [andb]. intros [= <-].
      assert (Hn : n = 0 \/ n = 1 \/ n = 2 \/ n = 3 \/ n = 4 \/ n = 5) by lia.
      destruct Hn as [->|[->|[->|[->|[->| ->]]]]]; (do 2 eexists; split; [|by right]; cbn; unfold api_types; repeat first [apply elem_of_list_here|apply elem_of_list_further]).
  - intros (name & n & Hin & Hs). unfold api_types in Hin. rewrite !elem_of_cons, elem_of_nil in Hin.
    assert (Hnum : forall n, in64 n -> (0 <=? n) && (n <=? 5) = true -> signed_numeral s n -> parse_type s = Some (type_number n)).
    { intros m Hm64 Hm Hsn. unfold parse_type. destruct (type_value s) as [t'|] eqn:E.
      - exfalso. apply (conj Hsn) in Hm64. apply parse_int_spec in Hm64. unfold type_value in E.
        repeat (case_bool_decide as Hx; [subst s; by vm_compute in Hm64|clear Hx]). done.
      - rewrite (proj2 (parse_int_spec s m)) by done. cbn [mbind option_bind]. by rewrite Hm. }
    destruct Hs as [->|Hs].
    + destruct Hin as [[= -> -> ->]|[[= -> -> ->]|[[= -> -> ->]|[[= -> -> ->]|[[= -> -> ->]|[[= -> -> ->]|[]]]]]]]; by vm_compute.
    + destruct Hin as [[= -> -> ->]|[[= -> -> ->]|[[= -> -> ->]|[[= -> -> ->]|[[= -> -> ->]|[[= -> -> ->]|[]]]]]]];
        (eapply eq_trans; [eapply Hnum; [| |exact Hs]; [unfold in64; lia|reflexivity]|reflexivity]).
Qed.
Lemma parse_bool_iff s b : parse_bool s = Some b <->
  (b = true /\ s ∈ ["1"; "t"; "T"; "TRUE"; "true"; "True"] \/ b = false /\ s ∈ ["0"; "f"; "F"; "FALSE"; "false"; "False"]).
Proof.
  unfold parse_bool. case_bool_decide as H1; [|case_bool_decide as H2].
  - split; [intros [= <-]; by left|]. intros [[-> _]|[-> H2]]; [done|].
    rewrite !elem_of_cons, elem_of_nil in H1, H2. naive_solver.
  - split; [intros [= <-]; by right|]. intros [[-> H]|[-> _]]; [by destruct H1|done].
  - split; [done|]. intros [[_ H]|[_ H]]; [by destruct H1|by destruct H2].
Qed.
Lemma int_given_iff v k n : (forall x rest, v !! k = Some (x :: rest) -> ~ zero_led x) ->
  on_first parse_int0 0 v k n <-> int_given v k n.
Proof.
  intros Hz. unfold on_first, int_given. destruct (v !! k) as [vs|]; [|done].
  split; intros (x & rest & -> & H); exists x, rest; (split; [done|]).
  - rewrite parse_int0_dec in H by (by eapply Hz). by apply parse_int_spec in H.
  - rewrite parse_int0_dec by (by eapply Hz). by apply parse_int_spec.
Qed.
Lemma decoded_says v id r :
  (forall k x rest, k ∈ ["start_time"; "end_time"; "limit"] -> v !! k = Some (x :: rest) -> ~ zero_led x) ->
  decoded v id r <-> read_says v id r.
Proof.
  intros Hz. unfold decoded, read_says.
  rewrite !int_given_iff by (intros x rest; apply Hz; set_solver).
  assert (H5 : on_all v "envelope_types" (rr_types r) <-> types_given v "envelope_types" (rr_types r)).
  { unfold on_all, types_given. destruct (v !! _) as [vs|]; [|done]. rewrite mapM_Some.
    split; (intros H; eapply Forall2_impl; [exact H|]; intros; by apply parse_type_iff). }
  assert (H6 : on_first parse_bool false v "descending" (rr_desc r) <-> bool_given v "descending" (rr_desc r)).
  { unfold on_first, bool_given. destruct (v !! _) as [vs|]; [|done].
    split; intros (x & rest & -> & H); exists x, rest; (split; [done|]); by apply parse_bool_iff. }
  assert (H7 : on_first Some "" v "name_filter" (rr_name r) <-> text_given v "name_filter" (rr_name r)).
  { unfold on_first, text_given. destruct (v !! _) as [vs|]; [|done].
    split; [intros (x & rest & -> & [= ->]); by eexists|intros [rest ->]; by do 2 eexists]. }
  rewrite H5, H6, H7. done.
Qed.
Lemma read_exact G id q r : carried id ->
  (forall k, is_Some (parse_query q !! k) -> k ∈ documented) ->
  (forall k x rest, k ∈ ["start_time"; "end_time"; "limit"] -> parse_query q !! k = Some (x :: rest) -> ~ zero_led x) ->
  serves G (append "/api/v1/read/" id) q (AskRead r) <-> read_says (parse_query q) id r.
Proof.
  intros Hc Hd Hz. rewrite <-decoded_says by done. split.
  - intros (kvs & Hp & H). rewrite serve_carried in H by done. unfold or_invalid in H.
    destruct (request_read _ _ _) as [r'|] eqn:E; [|done]. injection H as ->. by eapply request_read_decoded.
  - intros D. exists (map_to_list (parse_query q)). split; [done|]. rewrite serve_carried by done.
    erewrite request_read_some; [done|done|done|done].
Qed.
