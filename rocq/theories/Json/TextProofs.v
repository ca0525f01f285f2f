(** What is written is read back: proofs about Json/Text.v. *)
From Coq Require Import Ascii String.
From stdpp Require Import prelude strings list.
From Verif.Base Require Import Str Url UrlProofs Dec.
From Verif.Marshaler Require Import Model.
From Verif.Json Require Import Text Spec.
Open Scope string_scope.
Open Scope list_scope.

#[local] Arguments String.append : simpl nomatch.
Lemma append_assoc (a b c : string) : append (append a b) c = append a (append b c).
Proof. induction a as [|x a IH]; simpl; [done|]. by rewrite IH. Qed.
Lemma length_append (a b : string) : String.length (append a b) = (String.length a + String.length b)%nat.
Proof. induction a as [|x a IH]; simpl; [done|]. by rewrite IH. Qed.
Lemma append_nil (a : string) : append a "" = a.
Proof. induction a as [|x a IH]; simpl; [done|]. by rewrite IH. Qed.

(** ** UTF-8 *)
Lemma within_range lo hi c : within lo hi c = true <-> range lo hi c.
Proof. unfold within, range. rewrite andb_true_iff, !Nat.leb_le. lia. Qed.
Lemma within_false lo hi c : within lo hi c = false <-> ~ range lo hi c.
Proof. rewrite <-within_range. destruct (within lo hi c); naive_solver. Qed.
Lemma seq2_iff a b : seq2 a b = true <-> range 194 223 a /\ range 128 191 b.
Proof. unfold seq2. by rewrite andb_true_iff, !within_range. Qed.
Lemma seq3_iff a b c : seq3 a b c = true <->
  (range 224 224 a /\ range 160 191 b \/ range 225 236 a /\ range 128 191 b \/
   range 237 237 a /\ range 128 159 b \/ range 238 239 a /\ range 128 191 b) /\ range 128 191 c.
Proof. unfold seq3. rewrite andb_true_iff, !orb_true_iff, !andb_true_iff, !within_range. tauto. Qed.
Lemma seq4_iff a b c d : seq4 a b c d = true <->
  (range 240 240 a /\ range 144 191 b \/ range 241 243 a /\ range 128 191 b \/ range 244 244 a /\ range 128 143 b) /\
  range 128 191 c /\ range 128 191 d.
Proof. unfold seq4. rewrite !andb_true_iff, !orb_true_iff, !andb_true_iff, !within_range. tauto. Qed.

(** The bytes of one rune *)
Definition whole_rune (s : string) : Prop :=
  (exists a, s = String a "" /\ range 0 127 a) \/
  (exists a b, s = String a (String b "") /\ seq2 a b = true) \/
  (exists a b c, s = String a (String b (String c "")) /\ seq3 a b c = true) \/
  (exists a b c d, s = String a (String b (String c (String d ""))) /\ seq4 a b c d = true).
Definition good (k : chunk) : Prop := match k with Rune b => whole_rune b | Bad => True end.
(** induction along the chunks *)
Lemma chunks_ind (P : string -> list chunk -> Prop) :
  P "" [] ->
  (forall b s l, whole_rune b -> P s l -> P (append b s) (Rune b :: l)) ->
  (forall a s l, ~ range 0 127 a -> P s l -> P (String a s) (Bad :: l)) ->
  forall s, P s (chunks s).
Proof.
  intros H0 HR HB. assert (H : forall n s, (String.length s <= n)%nat -> P s (chunks s)); [|by eauto].
  induction n as [|n IH]; intros [|a s1] Hn; cbn in Hn; try done; try lia. cbn [chunks].
  destruct (within 0 127 a) eqn:Ea.
  { apply (HR (String a "") s1); [left; exists a; by rewrite <-within_range|]. apply IH. lia. }
  assert (HB1 : forall s, (String.length s <= n)%nat -> P (String a s) (Bad :: chunks s)).
  { intros s Hs. apply HB; [by apply within_false|]. apply IH. lia. }
  destruct s1 as [|b s2]; [apply (HB1 ""); cbn; lia|]. cbn in Hn.
  destruct (seq2 a b) eqn:E2.
  { apply (HR (String a (String b "")) s2); [right; left; eauto|]. apply IH. lia. }
  destruct s2 as [|c s3]; [apply (HB1 (String b "")); cbn; lia|]. cbn in Hn.
  destruct (seq3 a b c) eqn:E3.
  { apply (HR (String a (String b (String c ""))) s3); [right; right; left; eauto|]. apply IH. lia. }
  destruct s3 as [|d s4]; [apply (HB1 (String b (String c ""))); cbn; lia|]. cbn in Hn.
  destruct (seq4 a b c d) eqn:E4.
  { apply (HR (String a (String b (String c (String d "")))) s4); [right; right; right; eauto 6|]. apply IH. lia. }
  apply (HB1 (String b (String c (String d s4)))). cbn. lia.
Qed.
Lemma chunks_rune b s : whole_rune b -> chunks (append b s) = Rune b :: chunks s.
Proof.
  intros [(a & -> & H)|[(a & b' & -> & H)|[(a & b' & c & -> & H)|(a & b' & c & d & -> & H)]]]; cbn [append chunks].
  - by rewrite (proj2 (within_range _ _ _) H).
  - assert (Ha : within 0 127 a = false). { apply within_false. apply seq2_iff in H as [H _]. unfold range in *. lia. }
    by rewrite Ha, H.
  - assert (Ha : within 0 127 a = false /\ seq2 a b' = false).
    { apply seq3_iff in H as [H _]. split; [apply within_false; unfold range in *; lia|].
      destruct (seq2 a b') eqn:E; [|done]. apply seq2_iff in E as [E _]. unfold range in *; lia. }
    destruct Ha as [-> ->]. by rewrite H.
  - assert (Ha : within 0 127 a = false /\ seq2 a b' = false /\ seq3 a b' c = false).
    { apply seq4_iff in H as [H _]. split; [apply within_false; unfold range in *; lia|]. split.
      - destruct (seq2 a b') eqn:E; [|done]. apply seq2_iff in E as [E _]. unfold range in *; lia.
      - destruct (seq3 a b' c) eqn:E; [|done]. apply seq3_iff in E as [E _]. unfold range in *; lia. }
    destruct Ha as (-> & -> & ->). by rewrite H.
Qed.
Lemma replacement_rune : whole_rune replacement.
Proof. right; right; left. do 3 eexists. split; [reflexivity|]. vm_compute. reflexivity. Qed.
Lemma chunks_good s : Forall good (chunks s).
Proof. apply (chunks_ind (fun _ l => Forall good l)); intros; by constructor. Qed.
Lemma chunks_bytes l : Forall good l -> chunks (concat_map chunk_bytes l) = (fun k => Rune (chunk_bytes k)) <$> l.
Proof.
  induction 1 as [|k l Hk Hl IH]; [done|]. cbn [concat_map]. rewrite chunks_rune.
  - cbn. by rewrite IH.
  - destruct k; [done|apply replacement_rune].
Qed.
Lemma clean_idemp s : utf8_clean (utf8_clean s) = utf8_clean s.
Proof.
  unfold utf8_clean at 1 3. unfold utf8_clean. rewrite chunks_bytes by apply chunks_good.
  induction (chunks s) as [|k l IH]; [done|]. cbn. by rewrite IH.
Qed.
Lemma utf8_rune b s : whole_rune b -> utf8 s -> utf8 (append b s).
Proof.
  intros [(a & -> & H)|[(a & b' & -> & H)|[(a & b' & c & -> & H)|(a & b' & c & d & -> & H)]]] Hs; cbn [append].
  - by apply utf8_1.
  - apply seq2_iff in H as []. by apply utf8_2.
  - apply seq3_iff in H as []. by apply utf8_3.
  - apply seq4_iff in H as (? & ? & ?). by apply utf8_4.
Qed.
Lemma clean_utf8 s : utf8 (utf8_clean s).
Proof.
  unfold utf8_clean. pose proof (chunks_good s) as H. induction H as [|k l Hk Hl IH]; cbn; [constructor|].
  apply utf8_rune; [|done]. destruct k; [done|apply replacement_rune].
Qed.
Lemma utf8_clean_id s : utf8 s -> utf8_clean s = s.
Proof.
  unfold utf8_clean. induction 1 as [|a s H Hs IH|a b s Ha Hb Hs IH|a b c s Hab Hc Hs IH|a b c d s Hab Hc Hd Hs IH]; [done|..].
  - change (String a s) with (append (String a "") s) at 1. rewrite chunks_rune by (left; eauto). cbn. by rewrite IH.
  - change (String a (String b s)) with (append (String a (String b "")) s) at 1.
    rewrite chunks_rune by (right; left; do 2 eexists; split; [done|]; by apply seq2_iff). cbn. by rewrite IH.
  - change (String a (String b (String c s))) with (append (String a (String b (String c ""))) s) at 1.
    rewrite chunks_rune by (right; right; left; do 3 eexists; split; [done|]; by apply seq3_iff). cbn. by rewrite IH.
  - change (String a (String b (String c (String d s)))) with (append (String a (String b (String c (String d "")))) s) at 1.
    rewrite chunks_rune by (right; right; right; do 4 eexists; split; [done|]; by apply seq4_iff). cbn. by rewrite IH.
Qed.
Lemma utf8_iff s : utf8 s <-> utf8_clean s = s.
Proof. split; [apply utf8_clean_id|]. intros <-. apply clean_utf8. Qed.

(** ** Strings *)
(** The escape of a rune is scanned as it is, and stands for the rune *)
Definition scans (e : string) : Prop := forall t, scan (append e t) = '(x, y) ← scan t; Some (append e x, y).
Definition stands (e b : string) : Prop := forall t l, items t = Some l ->
  exists l', items (append e t) = Some l' /\ resolve l' = append b (resolve l).
Definition plain_byte (c : ascii) : bool := negb (ceqb c dquote) && negb (ceqb c backslash) && (32 <=? nat_of_ascii c)%nat.
Lemma scan_plain c t : plain_byte c = true -> scan (String c t) = '(x, y) ← scan t; Some (String c x, y).
Proof.
  unfold plain_byte. rewrite !andb_true_iff, !negb_true_iff, Nat.leb_le. intros [[H1 H2] H3]. cbn [scan]. rewrite H1, H2.
  destruct (Nat.ltb_spec (nat_of_ascii c) 32); [lia|done].
Qed.
Lemma items_plain c t : plain_byte c = true -> items (String c t) = cons (Byte c) <$> items t.
Proof. unfold plain_byte. rewrite !andb_true_iff, !negb_true_iff. intros [[H1 H2] H3]. cbn [items]. by rewrite H2. Qed.
Lemma scans_plain e : str_all plain_byte e = true -> scans e.
Proof.
  intros H t. induction e as [|c e IH]; cbn [append]; [by destruct (scan t) as [[]|]|]. cbn in H. apply andb_prop in H as [Hc He].
  rewrite scan_plain, IH by done. by destruct (scan t) as [[x y]|].
Qed.
Lemma stands_plain e : str_all plain_byte e = true -> stands e e.
Proof.
  induction e as [|c e IH]; intros H t l Ht; cbn [append]; [eauto|]. cbn in H. apply andb_prop in H as [Hc He].
  destruct (IH He t l Ht) as (l' & E & R). rewrite items_plain, E by done. eexists. split; [reflexivity|]. cbn. by rewrite R.
Qed.
Lemma plain_high c : (128 <= nat_of_ascii c)%nat -> plain_byte c = true.
Proof.
  intros H. unfold plain_byte. rewrite !andb_true_iff, !negb_true_iff, Nat.leb_le. split; [split|lia].
  - unfold ceqb. apply bool_decide_eq_false. intros ->. apply Nat.leb_le in H; vm_compute in H; discriminate H.
  - unfold ceqb. apply bool_decide_eq_false. intros ->. apply Nat.leb_le in H; vm_compute in H; discriminate H.
Qed.
Definition ascii_ok (c : ascii) : bool :=
  let e := escape_chunk (Rune (String c "")) in
  (str_all plain_byte e && bool_decide (e = String c "")) ||
  match e with
  | String b (String x "") => ceqb b backslash && negb (ceqb x "u") && bool_decide (simple_escape x = Some c)
  | String b (String u (String h1 (String h2 (String h3 (String h4 ""))))) =>
      ceqb b backslash && ceqb u "u" &&
      match hex4 h1 h2 h3 h4 with
      | Some n => negb (high_surrogate n) && negb (low_surrogate n) && bool_decide (encode_rune n = String c "")
      | None => false
      end && str_all plain_byte (String h1 (String h2 (String h3 (String h4 ""))))
  | _ => false
  end.
Lemma ascii_all c : range 0 127 c -> ascii_ok c = true.
Proof.
  intros [_ H]. destruct c as [b0 b1 b2 b3 b4 b5 b6 b7]. destruct b7; [exfalso|].
  - destruct b0, b1, b2, b3, b4, b5, b6; apply Nat.leb_le in H; vm_compute in H; discriminate H.
  - clear H. destruct b0, b1, b2, b3, b4, b5, b6; vm_compute; reflexivity.
Qed.
Lemma scan_backslash x t : scan (String backslash (String x t)) = '(a, b) ← scan t; Some (String backslash (String x a), b).
Proof. reflexivity. Qed.
Lemma ascii_ok_spec c : ascii_ok c = true -> scans (escape_chunk (Rune (String c ""))) /\ stands (escape_chunk (Rune (String c ""))) (String c "").
Proof.
  unfold ascii_ok. set (e := escape_chunk _). clearbody e. rewrite orb_true_iff. intros [H|H].
  { apply andb_prop in H as [H E]. apply bool_decide_eq_true in E as ->. split; [by apply scans_plain|by apply stands_plain]. }
  destruct e as [|b [|x [|h1 [|h2 [|h3 [|h4 [|]]]]]]]; try discriminate H.
  - rewrite !andb_true_iff, negb_true_iff in H. destruct H as [[Hb Hx] Hs].
    apply bool_decide_eq_true in Hs. unfold ceqb in Hb. apply bool_decide_eq_true in Hb as ->. split.
    + intros t. cbn [append]. rewrite scan_backslash. by destruct (scan t) as [[]|].
    + intros t l Ht. cbn [append items]. change (ceqb backslash backslash) with true. cbn iota. rewrite Hx, Hs, Ht. cbn.
      eexists. split; [reflexivity|done].
  - rewrite !andb_true_iff in H. destruct H as [[[Hb Hu] Hn] Hp]. unfold ceqb in Hb, Hu.
    apply bool_decide_eq_true in Hb as ->. apply bool_decide_eq_true in Hu as ->.
    destruct (hex4 h1 h2 h3 h4) as [n|] eqn:En; [|discriminate Hn]. rewrite !andb_true_iff, !negb_true_iff in Hn. destruct Hn as [[Hh Hl] Hn].
    apply bool_decide_eq_true in Hn. split.
    + intros t. cbn [append]. rewrite scan_backslash.
      change (String h1 (String h2 (String h3 (String h4 t)))) with (append (String h1 (String h2 (String h3 (String h4 "")))) t).
      rewrite (scans_plain _ Hp). by destruct (scan t) as [[x y]|].
    + intros t l Ht. cbn [append items]. change (ceqb backslash backslash) with true. change (ceqb "u" "u") with true. cbn iota.
      rewrite En, Ht. cbn. eexists. split; [reflexivity|]. cbn [resolve]. by rewrite Hh, Hl, Hn.
Qed.
Lemma hex_sep c : within 168 169 c = true -> c = ascii_of_nat 168 \/ c = ascii_of_nat 169.
Proof.
  rewrite within_range. unfold range. intros H. rewrite <-(ascii_nat_embedding c).
  assert (nat_of_ascii c = 168 \/ nat_of_ascii c = 169)%nat as [-> | ->] by lia; auto.
Qed.
Lemma high_all e : (forall a c b, e = append a (String c b) -> (128 <= nat_of_ascii c)%nat) -> str_all plain_byte e = true.
Proof.
  induction e as [|c e IH]; intros H; [done|]. cbn. rewrite (plain_high c) by (by apply (H "" c e)). cbn.
  apply IH. intros a d b ->. by apply (H (String c a) d b).
Qed.
Lemma escape_ok k : good k -> scans (escape_chunk k) /\ stands (escape_chunk k) (chunk_bytes k).
Proof.
  destruct k as [b|]; cbn [good chunk_bytes].
  2:{ intros _. split.
      - intros t. cbn [escape_chunk escaped append]. rewrite scan_backslash.
        change (String "f" (String "f" (String "f" (String "d" t)))) with (append "fffd" t).
        rewrite (scans_plain "fffd") by (vm_compute; reflexivity). by destruct (scan t) as [[x y]|].
      - intros t l Ht. cbn [escape_chunk escaped append items]. change (ceqb backslash backslash) with true. change (ceqb "u" "u") with true.
        cbn iota. change (hex4 "f" "f" "f" "d") with (Some 65533%N). rewrite Ht. cbn. eexists. split; [reflexivity|done]. }
  intros [(a & -> & H)|[(a & b' & -> & H)|[(a & b' & c & -> & H)|(a & b' & c & d & -> & H)]]].
  - by apply ascii_ok_spec, ascii_all.
  - apply seq2_iff in H as [H1 H2]. unfold range in *. cbn [escape_chunk].
    assert (P : str_all plain_byte (String a (String b' "")) = true) by (cbn; rewrite !plain_high by lia; done).
    split; [by apply scans_plain|by apply stands_plain].
  - cbn [escape_chunk]. destruct ((nat_of_ascii a =? 226)%nat && (nat_of_ascii b' =? 128)%nat && within 168 169 c) eqn:E.
    + rewrite !andb_true_iff, !Nat.eqb_eq in E. destruct E as [[Ea Eb] Ec].
      assert (Ha : a = ascii_of_nat 226) by (rewrite <-Ea; by rewrite ascii_nat_embedding).
      assert (Hb : b' = ascii_of_nat 128) by (rewrite <-Eb; by rewrite ascii_nat_embedding).
      subst a b'. apply hex_sep in Ec as [-> | ->].
      * split.
        -- intros t. cbn [escaped append]. rewrite scan_backslash.
           change (append (String "2" (String "0" (String "2" (String (hex_char (nat_of_ascii (ascii_of_nat 168) - 160)) "")))) t) with (append "2028" t).
           change (String "2" (String "0" (String "2" (String (hex_char (nat_of_ascii (ascii_of_nat 168) - 160)) t)))) with (append "2028" t).
           rewrite (scans_plain "2028") by (vm_compute; reflexivity). by destruct (scan t) as [[x y]|].
        -- intros t l Ht. cbn [escaped append items]. change (ceqb backslash backslash) with true. change (ceqb "u" "u") with true. cbn iota.
           change (hex4 "2" "0" "2" (hex_char (nat_of_ascii (ascii_of_nat 168) - 160))) with (Some 8232%N). rewrite Ht. cbn.
           eexists. split; [reflexivity|done].
      * split.
        -- intros t. cbn [escaped append]. rewrite scan_backslash.
           change (String "2" (String "0" (String "2" (String (hex_char (nat_of_ascii (ascii_of_nat 169) - 160)) t)))) with (append "2029" t).
           rewrite (scans_plain "2029") by (vm_compute; reflexivity). by destruct (scan t) as [[x y]|].
        -- intros t l Ht. cbn [escaped append items]. change (ceqb backslash backslash) with true. change (ceqb "u" "u") with true. cbn iota.
           change (hex4 "2" "0" "2" (hex_char (nat_of_ascii (ascii_of_nat 169) - 160))) with (Some 8233%N). rewrite Ht. cbn.
           eexists. split; [reflexivity|done].
    + apply seq3_iff in H as [H1 H2]. unfold range in *.
      assert (P : str_all plain_byte (String a (String b' (String c ""))) = true) by (cbn; rewrite !plain_high by lia; done).
      split; [by apply scans_plain|by apply stands_plain].
  - apply seq4_iff in H as (H1 & H2 & H3). unfold range in *. cbn [escape_chunk].
    assert (P : str_all plain_byte (String a (String b' (String c (String d "")))) = true) by (cbn; rewrite !plain_high by lia; done).
    split; [by apply scans_plain|by apply stands_plain].
Qed.
Lemma scan_chunks l : Forall good l -> forall r, scan (append (concat_map escape_chunk l) (String dquote r)) = Some (concat_map escape_chunk l, r).
Proof.
  induction 1 as [|k l Hk Hl IH]; intros r; [reflexivity|]. cbn [concat_map]. rewrite append_assoc.
  destruct (escape_ok k Hk) as [Hs _]. by rewrite Hs, IH.
Qed.
Lemma items_chunks l : Forall good l -> exists its, items (concat_map escape_chunk l) = Some its /\ resolve its = concat_map chunk_bytes l.
Proof.
  induction 1 as [|k l Hk Hl (its & E & R)]; [by exists []|]. cbn [concat_map]. destruct (escape_ok k Hk) as [_ Hs].
  destruct (Hs _ _ E) as (l' & E' & R'). exists l'. by rewrite E', R', R.
Qed.
Lemma read_written_string s r : read_string (append (concat_map escape_chunk (chunks s)) (String dquote r)) = Some (utf8_clean s, r).
Proof.
  unfold read_string. rewrite scan_chunks by apply chunks_good. cbn. unfold unquote.
  destruct (items_chunks (chunks s) (chunks_good s)) as (its & E & R). rewrite E. cbn. rewrite R.
  change (concat_map chunk_bytes (chunks s)) with (utf8_clean s). by rewrite clean_idemp.
Qed.
