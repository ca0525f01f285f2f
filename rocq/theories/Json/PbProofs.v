(** What jsonpb writes it reads: proofs about Json/Pb.v. *)
From Coq Require Import Ascii String.
From stdpp Require Import prelude strings list gmap.
From Verif.Base Require Import GoInt Envelope Str UrlProofs Dec.
From Verif.Marshaler Require Import Model.
From Verif.Http Require Import Model.
From Verif.Json Require Import Text Spec TextProofs ValueProofs Pb SpecPb.
Open Scope string_scope.
Open Scope list_scope.
Open Scope Z_scope.
#[local] Arguments String.append : simpl nomatch.

(** ** base64 *)
Lemma unchar_char x : unchar64 (char64 x) = Some x.
Proof. destruct x as [[[[[[] []] []] []] []] []]; vm_compute; reflexivity. Qed.
Lemma char64_plain x : ceqb (char64 x) "=" = false /\ (nat_of_ascii (char64 x) =? 10)%nat = false /\ (nat_of_ascii (char64 x) =? 13)%nat = false.
Proof. destruct x as [[[[[[] []] []] []] []] []]; vm_compute; done. Qed.
Lemma char64_ascii x : range 0 127 (char64 x).
Proof. apply within_range. destruct x as [[[[[[] []] []] []] []] []]; vm_compute; reflexivity. Qed.
Lemma three_ind (P : string -> Prop) : P "" -> (forall a, P (String a "")) -> (forall a b, P (String a (String b ""))) ->
  (forall a b c r, P r -> P (String a (String b (String c r)))) -> forall s, P s.
Proof.
  intros H0 H1 H2 H3. assert (H : forall n s, (String.length s <= n)%nat -> P s); [|by eauto].
  induction n as [|n IH]; intros [|a [|b [|c r]]] Hn; auto; cbn in Hn; [lia|]. apply H3, IH. lia.
Qed.
Lemma no_breaks_char x s : no_breaks (String (char64 x) s) = String (char64 x) (no_breaks s).
Proof. destruct (char64_plain x) as (_ & H1 & H2). cbn [no_breaks]. by rewrite H1, H2. Qed.
Lemma decode_encode s : decode64 (encode64 s) = Some s.
Proof.
  unfold decode64. induction s as [|a|a b|a b c r IH] using three_ind; [done|..].
  - destruct a as [a0 a1 a2 a3 a4 a5 a6 a7]. cbn [encode64]. rewrite !no_breaks_char. cbn [decode_quads].
    change (no_breaks (append pad pad)) with "==". cbn [decode_quads]. rewrite !unchar_char. done.
  - destruct a as [a0 a1 a2 a3 a4 a5 a6 a7], b as [b0 b1 b2 b3 b4 b5 b6 b7]. cbn [encode64]. rewrite !no_breaks_char.
    change (no_breaks pad) with "=". cbn [decode_quads]. rewrite !unchar_char.
    rewrite (proj1 (char64_plain _)). done.
  - destruct a as [a0 a1 a2 a3 a4 a5 a6 a7], b as [b0 b1 b2 b3 b4 b5 b6 b7], c as [c0 c1 c2 c3 c4 c5 c6 c7]. cbn [encode64].
    rewrite !no_breaks_char. cbn [decode_quads]. rewrite !unchar_char, !(proj1 (char64_plain _)), IH. done.
Qed.
Lemma encode64_utf8 s : utf8 (encode64 s).
Proof.
  induction s as [|a|a b|a b c r IH] using three_ind; [constructor|..].
  - destruct a as [a0 a1 a2 a3 a4 a5 a6 a7]. cbn [encode64]. apply utf8_1; [apply char64_ascii|]. apply utf8_1; [apply char64_ascii|].
    apply utf8_iff. vm_compute. reflexivity.
  - destruct a as [a0 a1 a2 a3 a4 a5 a6 a7], b as [b0 b1 b2 b3 b4 b5 b6 b7]. cbn [encode64].
    do 3 (apply utf8_1; [apply char64_ascii|]). apply utf8_iff. vm_compute. reflexivity.
  - destruct a as [a0 a1 a2 a3 a4 a5 a6 a7], b as [b0 b1 b2 b3 b4 b5 b6 b7], c as [c0 c1 c2 c3 c4 c5 c6 c7]. cbn [encode64].
    do 4 (apply utf8_1; [apply char64_ascii|]). done.
Qed.

(** ** Integers *)
Lemma digit_ascii c : range 48 57 c -> range 0 127 c.
Proof. unfold range. lia. Qed.
Lemma run_utf8 s : digit_run s -> utf8 s.
Proof. induction 1; (apply utf8_1; [by apply digit_ascii|]); [constructor|done]. Qed.
Lemma run_snoc s c : digit_run s -> range 48 57 c -> digit_run (append s (String c "")).
Proof. induction 1 as [d Hd|d s Hd Hs IH]; intros Hc; simpl; [by constructor; [|constructor]|]. constructor; [done|by apply IH]. Qed.
Lemma format_run fuel : forall n rest, 0 <= n < 10 ^ (Z.of_nat fuel + 1) -> exists s, format_digits fuel n rest = append s rest /\ digit_run s /\
  (1 <= n -> forall x, s <> String "0" x) /\ (n = 0 -> s = "0").
Proof.
  assert (Hone : forall n, 0 <= n < 10 -> digit_run (String (digit_char n) "") /\ (1 <= n -> forall x, String (digit_char n) "" <> String "0" x) /\
            (n = 0 -> String (digit_char n) "" = "0")).
  { intros n Hn. destruct (digit_char_ok n Hn) as [H1 H2]. split; [constructor; by apply digit_range|]. split; [|by intros ->].
    intros H x [= E]. rewrite E in H2. change (digit_val "0") with 0 in H2. lia. }
  induction fuel as [|fuel IH]; intros n rest H.
  - change (10 ^ (Z.of_nat 0 + 1)) with 10 in H. cbn [format_digits]. rewrite Z.mod_small by lia.
    exists (String (digit_char n) ""). split; [done|]. by apply Hone.
  - cbn [format_digits]. destruct (Z.ltb_spec n 10).
    + rewrite Z.mod_small by lia. exists (String (digit_char n) ""). split; [done|]. apply Hone. lia.
    + assert (H10 : 1 <= n / 10) by (apply Z.div_le_lower_bound; lia).
      destruct (IH (n / 10) (String (digit_char (n mod 10)) rest)) as (s & -> & Hs & Hz & _).
      { split; [lia|]. apply Z.div_lt_upper_bound; [lia|].
        replace (Z.of_nat (S fuel) + 1) with (Z.succ (Z.of_nat fuel + 1)) in H by lia. rewrite Z.pow_succ_r in H by lia. lia. }
      exists (append s (String (digit_char (n mod 10)) "")). split; [by rewrite append_assoc|]. split.
      { apply run_snoc; [done|]. apply digit_range, digit_char_ok, Z.mod_pos_bound. lia. }
      split; [|lia]. intros _ x E. destruct s as [|c s]; [by inversion Hs|]. simpl in E. injection E as -> _. by eapply (Hz H10 s).
Qed.
Lemma format_uint_run n : uint64 n -> digit_run (format_uint n) /\ (forall x, format_uint n = String "0" x -> x = "").
Proof.
  intros H. unfold format_uint. destruct (format_run 20 n "") as (s & -> & Hs & Hz & H0).
  - unfold uint64 in H. change (10 ^ (Z.of_nat 20 + 1)) with 1000000000000000000000. lia.
  - rewrite append_nil. split; [done|]. intros x ->. destruct (decide (n = 0)) as [En|].
    + specialize (H0 En). by injection H0.
    + exfalso. eapply Hz; [|done]. unfold uint64 in H. lia.
Qed.
Lemma uint_number n : uint64 n -> number_text (format_uint n).
Proof.
  intros H. destruct (format_uint_run n H) as [H1 H2]. pose proof (number_intro "" (format_uint n) "" "") as Hn.
  simpl in Hn. rewrite append_nil in Hn. apply Hn; try done; [set_solver|constructor|constructor].
Qed.
Lemma int_number n : int64 n -> number_text (format_int n).
Proof.
  intros H. unfold int64 in H. unfold format_int. destruct (Z.ltb_spec n 0); [|apply uint_number; unfold uint64; lia].
  destruct (format_uint_run (- n)) as [H1 H2]; [unfold uint64; lia|]. pose proof (number_intro "-" (format_uint (- n)) "" "") as Hn.
  simpl in Hn. rewrite append_nil in Hn. apply Hn; try done; [set_solver|constructor|constructor].
Qed.
Lemma number_utf8 s : number_text s -> utf8 s.
Proof.
  intros H. apply number_chars in H. induction s as [|c s IH]; [constructor|]. cbn in H. apply andb_prop in H as [Hc Hs].
  apply utf8_1; [|by apply IH]. apply within_range. destruct c as [[] [] [] [] [] [] [] []]; try discriminate Hc; reflexivity.
Qed.
Lemma read_number t : number_text t -> read_whole t = Some (JNum t).
Proof.
  intros H. pose proof (whole_write (JNum t) "") as Hw. cbn [write] in Hw. rewrite append_nil in Hw. apply Hw; [by constructor|done|done].
Qed.
Lemma dec_enc_int n : int64 n -> dec_int (JStr (format_int n)) = Some n.
Proof. intros H. unfold dec_int, dec_number. rewrite read_number by (by apply int_number). by apply parse_format_int. Qed.
Lemma dec_enc_uint n : uint64 n -> dec_uint (JStr (format_uint n)) = Some n.
Proof. intros H. unfold dec_uint, dec_number. rewrite read_number by (by apply uint_number). by apply parse_format_uint. Qed.

(** ** Objects *)
Definition names_of (f : pbfield) : list string := [f_orig f; f_camel f].
(** no two fields share a name *)
Fixpoint apart (fs : list pbfield) : bool :=
  match fs with
  | [] => true
  | f :: fs => forallb (fun g => forallb (fun n => bool_decide (n ∉ names_of g)) (names_of f)) fs && apart fs
  end.
Lemma field_app k l1 l2 : field k (l1 ++ l2) = match field k l2 with Some j => Some j | None => field k l1 end.
Proof.
  induction l1 as [|[k' j] l1 IH]; cbn [app field]; [by destruct (field k l2)|]. rewrite IH. by destruct (field k l2).
Qed.
Lemma enc_fields_cons st f fs : enc_fields st (f :: fs) = enc_field st f ++ enc_fields st fs.
Proof. done. Qed.
Lemma field_none st k fs : (forall f, f ∈ fs -> k ∉ names_of f) -> field k (enc_fields st fs) = None.
Proof.
  induction fs as [|f fs IH]; intros H; [done|]. rewrite enc_fields_cons, field_app, IH by (intros g Hg; apply H; by right).
  unfold enc_field. destruct (omitted st f); [done|]. cbn [field]. destruct (decide _) as [E|]; [|done]. exfalso.
  apply (H f); [by left|]. unfold names_of. rewrite <-E. destruct (orig_name st); set_solver.
Qed.
Lemma look_enc st f fs : apart fs = true -> f ∈ fs ->
  look (f_orig f) (f_camel f) (enc_fields st fs) = if omitted st f then None else Some (f_json f).
Proof.
  induction fs as [|g fs IH]; intros Ha Hf; [by apply elem_of_nil in Hf|]. cbn [apart] in Ha. apply andb_prop in Ha as [Hg Ha].
  rewrite forallb_forall in Hg.
  assert (Hd : forall h, h ∈ fs -> forall n, n ∈ names_of g -> n ∉ names_of h).
  { intros h Hh n Hn. apply elem_of_list_In in Hh. specialize (Hg h Hh). rewrite forallb_forall in Hg.
    specialize (Hg n (proj1 (elem_of_list_In _ _) Hn)). by apply bool_decide_eq_true in Hg. }
  unfold look. rewrite enc_fields_cons, !field_app. apply elem_of_cons in Hf as [->|Hf].
  - rewrite (field_none st (f_camel g) fs), (field_none st (f_orig g) fs).
    + unfold enc_field. destruct (omitted st g); [done|]. cbn [field]. destruct (orig_name st).
      * destruct (decide (f_orig g = f_camel g)); [done|]. by destruct (decide _).
      * by destruct (decide _).
    + intros h Hh. apply (Hd h Hh). unfold names_of. set_solver.
    + intros h Hh. apply (Hd h Hh). unfold names_of. set_solver.
  - specialize (IH Ha Hf). unfold look in IH.
    assert (Hn : field (f_camel f) (enc_field st g) = None /\ field (f_orig f) (enc_field st g) = None).
    { unfold enc_field. destruct (omitted st g); [done|]. cbn [field].
      assert (Hx : forall x, x ∈ names_of f -> (if orig_name st then f_orig g else f_camel g) <> x).
      { intros x Hx E. apply (Hd f Hf (if orig_name st then f_orig g else f_camel g)).
        - unfold names_of. destruct (orig_name st); set_solver.
        - by rewrite E. }
      split; (destruct (decide _) as [E|]; [|done]); exfalso; (eapply Hx; [|exact E]); unfold names_of; set_solver. }
    destruct Hn as [-> ->]. rewrite <-IH. by destruct (field (f_camel f) (enc_fields st fs)), (field (f_orig f) (enc_fields st fs)).
Qed.
Lemma look_absent st k fs : (forall f, f ∈ fs -> k ∉ names_of f) -> look k k (enc_fields st fs) = None.
Proof. intros H. unfold look. by rewrite field_none. Qed.
Lemma known_enc st names fs : forallb (fun f => forallb (fun n => bool_decide (n ∈ names)) (names_of f)) fs = true -> known names (enc_fields st fs) = true.
Proof.
  induction fs as [|f fs IH]; [done|]. cbn [forallb]. intros H. apply andb_prop in H as [Hf H].
  unfold known in *. rewrite enc_fields_cons, forallb_app, IH by done. rewrite andb_true_r.
  unfold enc_field. destruct (omitted st f); [done|]. cbn in *. apply andb_prop in Hf as [H1 H2]. apply andb_prop in H2 as [H2 _].
  rewrite andb_true_r. by destruct (orig_name st).
Qed.
Lemma get_enc {A} st f fs (zero a : A) dec o c : apart fs = true -> f ∈ fs -> f_orig f = o -> f_camel f = c -> (omitted st f = true -> a = zero) ->
  (f_json f <> JNull -> dec (f_json f) = Some a) -> (f_json f = JNull -> a = zero) -> get o c (enc_fields st fs) zero dec = Some a.
Proof.
  intros Ha Hf <- <- Hz Hd Hn. unfold get. rewrite look_enc by done. destruct (omitted st f) eqn:E.
  - by rewrite Hz.
  - destruct (f_json f) eqn:Ej; try (by apply Hd). by rewrite Hn.
Qed.
Lemma with_enc {A} st names fs (f : list (string * json) -> option A) :
  forallb (fun g => forallb (fun n => bool_decide (n ∈ names)) (names_of g)) fs = true ->
  with_object names f (enc_object st fs) = f (enc_fields st fs).
Proof. intros H. unfold with_object, enc_object. by rewrite known_enc. Qed.
Lemma writable_fields st fs : Forall (fun f => utf8 (f_orig f) /\ utf8 (f_camel f) /\ writable (f_json f)) fs -> writable (enc_object st fs).
Proof.
  intros H. unfold enc_object. constructor. induction H as [|f fs (Ho & Hc & Hj) _ IH]; [constructor|]. rewrite enc_fields_cons.
  apply Forall_app. split; [|done]. unfold enc_field. destruct (omitted st f); constructor; [|constructor]. by destruct (orig_name st).
Qed.
Lemma dec_enc_map {A} (enc : A -> json) dec (m : gmap string A) : (forall k a, m !! k = Some a -> dec (enc a) = Some a) -> dec_map dec (enc_map enc m) = Some m.
Proof.
  intros H. unfold dec_map, enc_map.
  assert (E : mapM (fun kj : string * json => a ← dec kj.2; Some (kj.1, a)) ((fun ka : string * A => (ka.1, enc ka.2)) <$> map_to_list m) = Some (map_to_list m)).
  { assert (Hm : forall ka, ka ∈ map_to_list m -> m !! ka.1 = Some ka.2) by (intros [k a] Hk; by apply elem_of_map_to_list).
    induction (map_to_list m) as [|[k a] l IH]; [done|]. cbn. rewrite (H k a) by (apply (Hm (k, a)); by left). cbn.
    rewrite IH; [done|]. intros ka Hka. apply Hm. by right. }
  rewrite E. cbn. f_equal. rewrite <-(list_to_map_to_list m) at 2. apply list_to_map_proper.
  - rewrite reverse_Permutation. apply NoDup_fst_map_to_list.
  - apply reverse_Permutation.
Qed.
Lemma writable_map {A} (enc : A -> json) (m : gmap string A) : (forall k a, m !! k = Some a -> utf8 k /\ writable (enc a)) -> writable (enc_map enc m).
Proof.
  intros H. constructor. apply Forall_fmap, Forall_forall. intros [k a] Hk. apply elem_of_map_to_list in Hk. cbn. by apply H.
Qed.
