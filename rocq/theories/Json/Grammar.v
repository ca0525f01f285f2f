(** The reader of Json/Text.v reads the texts of RFC 8259, and for what they stand for. *)
From Coq Require Import Ascii String.
From stdpp Require Import prelude strings list.
From Verif.Base Require Import Str Url UrlProofs Dec.
From Verif.Marshaler Require Import Model.
From Verif.Json Require Import Text Spec TextProofs ValueProofs SpecGrammar.
Open Scope string_scope.
Open Scope list_scope.
#[local] Arguments String.append : simpl nomatch.

(** ** UTF-8 *)
Lemma code_nat a : code a = N.of_nat (nat_of_ascii a).
Proof. unfold code, nat_of_ascii. by rewrite N2Nat.id. Qed.
Lemma code_bound a : (code a < 256)%N.
Proof. apply N_ascii_bounded. Qed.
Lemma byte_code n a : n = code a -> byte n = String a "".
Proof. intros ->. unfold byte, code. by rewrite ascii_N_embedding. Qed.
Lemma range_code lo hi a : range lo hi a <-> (N.of_nat lo <= code a <= N.of_nat hi)%N.
Proof. unfold range. rewrite code_nat. lia. Qed.
Lemma encodes_rune b n : encodes b n -> whole_rune b.
Proof.
  intros [a n' -> Hn|a b' n' Ha Hb -> Hn|a b' c n' Ha Hb Hc -> Hn Hs|a b' c d n' Ha Hb Hc Hd -> Hn]; unfold continues in *.
  - left. exists a. split; [done|]. apply range_code. lia.
  - right; left. exists a, b'. split; [done|]. apply seq2_iff. rewrite !range_code. lia.
  - right; right; left. exists a, b', c. split; [done|]. apply seq3_iff. rewrite !range_code. lia.
  - right; right; right. exists a, b', c, d. split; [done|]. apply seq4_iff. rewrite !range_code. lia.
Qed.
Lemma rune_encodes b : whole_rune b -> exists n, encodes b n.
Proof.
  intros [(a & -> & H)|[(a & b' & -> & H)|[(a & b' & c & -> & H)|(a & b' & c & d & -> & H)]]].
  - apply range_code in H. eexists. apply enc_1; [done|lia].
  - apply seq2_iff in H. rewrite !range_code in H. eexists. apply enc_2; unfold continues; [..|reflexivity|]; lia.
  - apply seq3_iff in H. rewrite !range_code in H. eexists. apply enc_3; unfold continues; [..|reflexivity| |]; lia.
  - apply seq4_iff in H. rewrite !range_code in H. eexists. apply enc_4; unfold continues; [..|reflexivity|]; lia.
Qed.
Lemma dm q r m : (r < m)%N -> ((q * m + r) / m = q /\ (q * m + r) mod m = r)%N.
Proof.
  intros H. split.
  - symmetry. apply (N.div_unique _ _ _ r); [done|]. lia.
  - symmetry. apply (N.mod_unique _ _ q); [done|]. lia.
Qed.
Lemma split3 p q r : (q < 64)%N -> (r < 64)%N -> let n := (p * 4096 + q * 64 + r)%N in (n / 4096 = p /\ n / 64 mod 64 = q /\ n mod 64 = r)%N.
Proof.
  intros Hq Hr n. subst n. destruct (dm p (q * 64 + r) 4096 ltac:(lia)) as [A _].
  rewrite N.add_assoc in A. split; [exact A|].
  replace (p * 4096 + q * 64 + r)%N with ((p * 64 + q) * 64 + r)%N by lia. destruct (dm (p * 64 + q) r 64 Hr) as [-> ->]. split; [|done]. by apply dm.
Qed.
Lemma split4 o p q r : (p < 64)%N -> (q < 64)%N -> (r < 64)%N -> let n := (o * 262144 + p * 4096 + q * 64 + r)%N in
  (n / 262144 = o /\ n / 4096 mod 64 = p /\ n / 64 mod 64 = q /\ n mod 64 = r)%N.
Proof.
  intros Hp Hq Hr n. subst n. destruct (dm o (p * 4096 + q * 64 + r) 262144 ltac:(lia)) as [A _].
  rewrite !N.add_assoc in A. split; [exact A|].
  replace (o * 262144 + p * 4096 + q * 64 + r)%N with ((o * 64 + p) * 4096 + q * 64 + r)%N by lia.
  destruct (split3 (o * 64 + p) q r Hq Hr) as (-> & -> & ->). split; [|done]. by apply dm.
Qed.
Lemma encodes_encode b n : encodes b n -> b = encode_rune n.
Proof.
  intros [a n' -> Hn|a b' n' Ha Hb -> Hn|a b' c n' Ha Hb Hc -> Hn Hs|a b' c d n' Ha Hb Hc Hd -> Hn]; unfold continues in *; unfold encode_rune.
  - rewrite (proj2 (N.ltb_lt _ _)) by lia. symmetry. by apply byte_code.
  - rewrite (proj2 (N.ltb_ge _ _)) by lia. rewrite (proj2 (N.ltb_lt _ _)) by lia.
    destruct (dm (code a - 192) (code b' - 128) 64 ltac:(lia)) as [-> ->].
    rewrite (byte_code _ a) by lia. rewrite (byte_code _ b') by lia. done.
  - rewrite (proj2 (N.ltb_ge _ _)) by lia. rewrite (proj2 (N.ltb_ge _ _)) by lia. rewrite (proj2 (N.ltb_lt _ _)) by lia.
    destruct (split3 (code a - 224) (code b' - 128) (code c - 128) ltac:(lia) ltac:(lia)) as (-> & -> & ->).
    rewrite (byte_code _ a) by lia. rewrite (byte_code _ b') by lia. rewrite (byte_code _ c) by lia. done.
  - rewrite (proj2 (N.ltb_ge _ _)) by lia. rewrite (proj2 (N.ltb_ge _ _)) by lia. rewrite (proj2 (N.ltb_ge _ _)) by lia.
    destruct (split4 (code a - 240) (code b' - 128) (code c - 128) (code d - 128) ltac:(lia) ltac:(lia) ltac:(lia)) as (-> & -> & -> & ->).
    rewrite (byte_code _ a) by lia. rewrite (byte_code _ b') by lia. rewrite (byte_code _ c) by lia. rewrite (byte_code _ d) by lia. done.
Qed.
Lemma code_of n : (n < 256)%N -> code (ascii_of_N n) = n.
Proof. intros H. unfold code. by apply N_ascii_embedding. Qed.
Lemma parts n : (n < 2097152)%N -> exists o p q r, (p < 64 /\ q < 64 /\ r < 64 /\ o < 8 /\ n = o * 262144 + p * 4096 + q * 64 + r)%N.
Proof.
  intros H. exists (n / 262144)%N, (n / 4096 mod 64)%N, (n / 64 mod 64)%N, (n mod 64)%N.
  pose proof (N.mod_lt n 64 ltac:(done)). pose proof (N.mod_lt (n / 64) 64 ltac:(done)). pose proof (N.mod_lt (n / 4096) 64 ltac:(done)).
  pose proof (N.div_mod n 64 ltac:(done)) as D1. pose proof (N.div_mod (n / 64) 64 ltac:(done)) as D2. pose proof (N.div_mod (n / 64 / 64) 64 ltac:(done)) as D3.
  rewrite !N.div_div in D2, D3 by done. rewrite N.div_div in D3 by done. change (64 * 64)%N with 4096%N in *. change (4096 * 64)%N with 262144%N in *.
  repeat split; try done.
  - apply N.div_lt_upper_bound; [done|]. lia.
  - remember (n / 64)%N. remember (n / 4096)%N. remember (n / 262144)%N. lia.
Qed.
Lemma encode_encodes n : (n < 1114112)%N -> ~ (55296 <= n < 57344)%N -> encodes (encode_rune n) n.
Proof.
  intros Hn Hs. destruct (parts n ltac:(lia)) as (o & p & q & r & Hp & Hq & Hr & Ho & ->).
  destruct (split4 o p q r Hp Hq Hr) as (E1 & E2 & E3 & E4).
  unfold encode_rune, byte. set (n := (o * 262144 + p * 4096 + q * 64 + r)%N) in *.
  destruct (N.ltb_spec n 128); [|destruct (N.ltb_spec n 2048); [|destruct (N.ltb_spec n 65536)]]; simpl.
  - apply enc_1; [|lia]. by rewrite code_of by lia.
  - replace (n / 64)%N with q. 2:{ replace n with (q * 64 + r)%N by lia. symmetry. by apply dm. } rewrite E4. apply enc_2; unfold continues; rewrite ?code_of by lia; lia.
  - replace (n / 4096)%N with p. 2:{ replace n with (p * 4096 + q * 64 + r)%N by lia. symmetry. by apply split3. } rewrite E3, E4. apply enc_3; unfold continues; rewrite ?code_of by lia; lia.
  - rewrite E1, E2, E3, E4. apply enc_4; unfold continues; rewrite ?code_of by lia; lia.
Qed.
Lemma substitute_iff u : substitute u <-> u = replacement.
Proof.
  split; [|intros ->].
  - intros H. apply encodes_encode in H. rewrite H. by vm_compute.
  - unfold substitute. change replacement with (encode_rune 65533). apply encode_encodes; lia.
Qed.
Lemma chunks_cases s : (s = "" /\ chunks s = []) \/ (exists b r, whole_rune b /\ s = append b r /\ chunks s = Rune b :: chunks r) \/
  (exists a r, s = String a r /\ chunks s = Bad :: chunks r).
Proof.
  destruct s as [|a s1]; [by left|right]. cbn [chunks]. destruct (within 0 127 a) eqn:Ea.
  { left. exists (String a ""), s1. split; [left; exists a; by rewrite <-within_range|done]. }
  destruct s1 as [|b s2]; [right; by exists a, ""|]. destruct (seq2 a b) eqn:E2.
  { left. exists (String a (String b "")), s2. split; [right; left; eauto|done]. }
  destruct s2 as [|c s3]; [right; by exists a, (String b "")|]. destruct (seq3 a b c) eqn:E3.
  { left. exists (String a (String b (String c ""))), s3. split; [right; right; left; eauto|done]. }
  destruct s3 as [|d s4]; [right; by exists a, (String b (String c ""))|]. destruct (seq4 a b c d) eqn:E4.
  { left. exists (String a (String b (String c (String d "")))), s4. split; [right; right; right; eauto 6|done]. }
  right. by eexists a, _.
Qed.
Lemma rune_nonempty b : whole_rune b -> b <> "".
Proof. intros [(a & -> & H)|[(a & b' & -> & H)|[(a & b' & c & -> & H)|(a & b' & c & d & -> & H)]]]; done. Qed.
Lemma repaired_clean s : repaired s (utf8_clean s).
Proof.
  assert (H : forall n s, (String.length s <= n)%nat -> repaired s (utf8_clean s)); [|by eauto]. clear s.
  induction n as [|n IH]; intros s Hn.
  - destruct s; [constructor|cbn in Hn; lia].
  - unfold utf8_clean. destruct (chunks_cases s) as [[-> E]|[(b & r & Hb & -> & E)|(a & r & -> & E)]]; rewrite E; [constructor|..]; cbn [concat_map chunk_bytes].
    + destruct (rune_encodes b Hb) as [m Hm]. eapply rep_char; [exact Hm|]. apply IH. rewrite length_append in Hn. apply rune_nonempty in Hb.
      destruct b; [done|]. cbn in Hn. lia.
    + apply rep_byte; [|by apply substitute_iff|apply IH; cbn in Hn; lia].
      intros b m r' Er Hm. apply encodes_rune in Hm. rewrite Er, chunks_rune in E by done. done.
Qed.
Lemma repaired_fun s t : repaired s t -> t = utf8_clean s.
Proof.
  unfold utf8_clean. induction 1 as [|b n s t Hb _ IH|a s t u Hno Hu _ IH]; [done|..].
  - apply encodes_rune in Hb. rewrite chunks_rune by done. cbn [concat_map chunk_bytes]. by rewrite IH.
  - apply substitute_iff in Hu as ->. destruct (chunks_cases (String a s)) as [[? _]|[(b & r & Hb & E & _)|(a' & r & [= <- <-] & E)]]; [done|..].
    + destruct (rune_encodes b Hb) as [m Hm]. by eapply Hno in Hm.
    + rewrite E. cbn [concat_map chunk_bytes]. by rewrite IH.
Qed.
Lemma repaired_iff s t : repaired s t <-> t = utf8_clean s.
Proof. split; [apply repaired_fun|]. intros ->. apply repaired_clean. Qed.

(** ** Strings *)
Definition sym_item (x : symbol) : item := match x with Plain c => Byte c | UtfUnit n => Unit n end.
Lemma hex_iff c x : unhex c = Some x <-> (c, N.of_nat x) ∈ hex_digits.
Proof.
  assert (H : forall c, match unhex c with Some x => bool_decide ((c, N.of_nat x) ∈ hex_digits) | None => negb (existsb (fun p => ceqb p.1 c) hex_digits) end = true).
  { intros [[] [] [] [] [] [] [] []]; by vm_compute. }
  specialize (H c). split.
  - intros E. rewrite E in H. by apply bool_decide_eq_true in H.
  - intros E. destruct (unhex c) as [y|] eqn:Ey.
    + apply bool_decide_eq_true in H. f_equal. apply Nat2N.inj.
      assert (F : forall p q, p ∈ hex_digits -> q ∈ hex_digits -> p.1 = q.1 -> p.2 = q.2).
      { assert (G : forallb (fun p => forallb (fun q => implb (ceqb p.1 q.1) (N.eqb p.2 q.2)) hex_digits) hex_digits = true) by (by vm_compute).
        intros p q Hp Hq Epq. rewrite forallb_forall in G. apply elem_of_list_In in Hp, Hq. specialize (G p Hp). rewrite forallb_forall in G.
        specialize (G q Hq). unfold ceqb in G. rewrite bool_decide_true in G by done. by apply N.eqb_eq in G. }
      exact (F _ _ H E eq_refl).
    + exfalso. apply negb_true_iff in H. assert (existsb (fun p => ceqb p.1 c) hex_digits = true) as H'; [|congruence].
      apply existsb_exists. exists (c, N.of_nat x). split; [by apply elem_of_list_In|]. by apply bool_decide_eq_true.
Qed.
Lemma hex_some c n : (c, n) ∈ hex_digits -> unhex c = Some (N.to_nat n).
Proof. intros H. apply hex_iff. by rewrite N2Nat.id. Qed.
Lemma hex_plain c n : (c, n) ∈ hex_digits -> (32 <= code c)%N /\ c <> "034"%char /\ c <> "092"%char /\ (n < 16)%N.
Proof. unfold hex_digits. rewrite !elem_of_cons, elem_of_nil. intros H. repeat (destruct H as [[= -> ->]|H]; [by vm_compute|]). done. Qed.
Lemma escape_iff e c : ceqb e "u" = false /\ simple_escape e = Some c <-> (e, c) ∈ escapes.
Proof.
  assert (H : forall e, match (if ceqb e "u" then None else simple_escape e) with Some x => bool_decide ((e, x) ∈ escapes) | None => negb (existsb (fun p => ceqb p.1 e) escapes) end = true).
  { intros [[] [] [] [] [] [] [] []]; by vm_compute. }
  specialize (H e). split.
  - intros [Eu E]. rewrite Eu, E in H. by apply bool_decide_eq_true in H.
  - intros E. destruct (if ceqb e "u" then None else simple_escape e) as [y|] eqn:Ey.
    + destruct (ceqb e "u"); [done|]. apply bool_decide_eq_true in H. split; [done|]. rewrite Ey. f_equal.
      assert (F : forall p q, p ∈ escapes -> q ∈ escapes -> p.1 = q.1 -> p.2 = q.2).
      { assert (G : forallb (fun p => forallb (fun q => implb (ceqb p.1 q.1) (ceqb p.2 q.2)) escapes) escapes = true) by (by vm_compute).
        intros p q Hp Hq Epq. rewrite forallb_forall in G. apply elem_of_list_In in Hp, Hq. specialize (G p Hp). rewrite forallb_forall in G.
        specialize (G q Hq). unfold ceqb at 1 in G. rewrite bool_decide_true in G by done. cbn in G. by apply bool_decide_eq_true in G. }
      exact (F _ _ H E eq_refl).
    + exfalso. apply negb_true_iff in H. assert (existsb (fun p => ceqb p.1 e) escapes = true) as H'; [|congruence].
      apply existsb_exists. exists (e, c). split; [by apply elem_of_list_In|]. by apply bool_decide_eq_true.
Qed.
Lemma ceqb_refl' a : ceqb a a = true.
Proof. by apply bool_decide_eq_true. Qed.
Lemma ceqb_ne a b : a <> b -> ceqb a b = false.
Proof. intros H. by apply bool_decide_eq_false. Qed.
Lemma plain_ok c : (32 <= code c)%N -> c <> "034"%char -> c <> "092"%char -> plain_byte c = true.
Proof.
  intros H1 H2 H3. unfold plain_byte. rewrite (ceqb_ne c dquote), (ceqb_ne c backslash) by done. cbn [negb andb].
  apply Nat.leb_le. rewrite code_nat in H1. lia.
Qed.
Lemma hex4_some h1 h2 h3 h4 n1 n2 n3 n4 : (h1, n1) ∈ hex_digits -> (h2, n2) ∈ hex_digits -> (h3, n3) ∈ hex_digits -> (h4, n4) ∈ hex_digits ->
  hex4 h1 h2 h3 h4 = Some (n1 * 4096 + n2 * 256 + n3 * 16 + n4)%N.
Proof.
  intros H1 H2 H3 H4. unfold hex4. rewrite (hex_some _ _ H1), (hex_some _ _ H2), (hex_some _ _ H3), (hex_some _ _ H4). cbn [mbind option_bind].
  by rewrite !N2Nat.id.
Qed.
Lemma spelled_read raw l : spelled raw l -> items raw = Some (map sym_item l) /\ forall r, scan (append raw (String dquote r)) = Some (raw, r).
Proof.
  induction 1 as [|c s l H1 H2 H3 _ [IH1 IH2]|e c s l He _ [IH1 IH2]|h1 h2 h3 h4 n1 n2 n3 n4 s l E1 E2 E3 E4 _ [IH1 IH2]].
  - split; [done|]. intros r. done.
  - pose proof (plain_ok _ H1 H2 H3) as Hp. split.
    + rewrite items_plain by done. by rewrite IH1.
    + intros r. cbn [String.append]. rewrite scan_plain by done. by rewrite IH2.
  - apply escape_iff in He as [Hu He]. split.
    + cbn [items]. replace (ceqb "092" backslash) with true by done. rewrite Hu, He. cbn [mbind option_bind]. by rewrite IH1.
    + intros r. cbn [String.append]. change "092"%char with backslash. rewrite scan_backslash. by rewrite IH2.
  - split.
    + cbn [items]. replace (ceqb "092" backslash) with true by done. replace (ceqb "u" "u") with true by done.
      rewrite (hex4_some _ _ _ _ _ _ _ _ E1 E2 E3 E4). cbn [mbind option_bind]. by rewrite IH1.
    + intros r. cbn [String.append]. change "092"%char with backslash. rewrite scan_backslash.
      destruct (hex_plain _ _ E1) as (? & ? & ? & _), (hex_plain _ _ E2) as (? & ? & ? & _), (hex_plain _ _ E3) as (? & ? & ? & _), (hex_plain _ _ E4) as (? & ? & ? & _).
      do 4 (rewrite scan_plain by (by apply plain_ok)). by rewrite IH2.
Qed.
(** what scan lets through *)
Inductive raw_ok : string -> Prop :=
| raw_nil : raw_ok ""
| raw_plain c s : (32 <= code c)%N -> c <> "034"%char -> c <> "092"%char -> raw_ok s -> raw_ok (String c s)
| raw_escape e s : raw_ok s -> raw_ok (String "092" (String e s)).
Lemma scan_ok s raw r : scan s = Some (raw, r) -> s = append raw (String dquote r) /\ raw_ok raw.
Proof.
  assert (H : forall n s raw r, (String.length s <= n)%nat -> scan s = Some (raw, r) -> s = append raw (String dquote r) /\ raw_ok raw); [|by eauto].
  clear s raw r. induction n as [|n IH]; intros s raw r Hn H; (destruct s as [|c s]; [done|]); [cbn in Hn; lia|]. cbn [String.length] in Hn. cbn [scan] in H.
  destruct (ceqb c dquote) eqn:Eq.
  { injection H as <- <-. apply bool_decide_eq_true in Eq as ->. split; [done|constructor]. }
  destruct (ceqb c backslash) eqn:Eb.
  { apply bool_decide_eq_true in Eb as ->. destruct s as [|e s]; [done|]. destruct (scan s) as [[a b]|] eqn:E; cbn in H; [|done]. injection H as <- <-.
    apply IH in E as [-> Hr]; [|cbn in Hn; lia]. split; [done|]. by constructor. }
  destruct (nat_of_ascii c <? 32)%nat eqn:Ec; [done|]. destruct (scan s) as [[a b]|] eqn:E; cbn in H; [|done]. injection H as <- <-.
  apply IH in E as [-> Hr]; [|lia]. split; [done|]. apply bool_decide_eq_false in Eq, Eb. apply Nat.ltb_ge in Ec.
  constructor; [rewrite code_nat; lia|done|done|done].
Qed.
Lemma raw_tail c s : raw_ok (String c s) -> c <> "092"%char -> raw_ok s.
Proof. intros H Hc. by inversion H. Qed.
Lemma items_spelled raw its : raw_ok raw -> items raw = Some its -> exists l, spelled raw l /\ its = map sym_item l.
Proof.
  assert (H : forall n raw its, (String.length raw <= n)%nat -> raw_ok raw -> items raw = Some its -> exists l, spelled raw l /\ its = map sym_item l); [|by eauto].
  clear raw its. induction n as [|n IH]; intros raw its Hn Hr H.
  { destruct raw; [|cbn in Hn; lia]. injection H as <-. exists []. by split; [constructor|]. }
  destruct Hr as [|c s H1 H2 H3 Hr|e s Hr].
  - injection H as <-. exists []. by split; [constructor|].
  - rewrite items_plain in H by (by apply plain_ok). destruct (items s) as [l0|] eqn:E; cbn in H; [|done]. injection H as <-.
    apply IH in E as (l & Hl & ->); [|cbn in Hn; lia|done]. exists (Plain c :: l). split; [by constructor|done].
  - cbn [items] in H. replace (ceqb "092" backslash) with true in H by done. destruct (ceqb e "u") eqn:Eu.
    + apply bool_decide_eq_true in Eu as ->. destruct s as [|h1 [|h2 [|h3 [|h4 s]]]]; try done.
      unfold hex4 in H. destruct (unhex h1) as [x1|] eqn:E1; [|done]. destruct (unhex h2) as [x2|] eqn:E2; [|done].
      destruct (unhex h3) as [x3|] eqn:E3; [|done]. destruct (unhex h4) as [x4|] eqn:E4; [|done]. cbn [mbind option_bind] in H.
      apply hex_iff in E1, E2, E3, E4.
      destruct (hex_plain _ _ E1) as (_ & _ & K1 & _), (hex_plain _ _ E2) as (_ & _ & K2 & _), (hex_plain _ _ E3) as (_ & _ & K3 & _), (hex_plain _ _ E4) as (_ & _ & K4 & _).
      do 4 (apply raw_tail in Hr; [|done]). destruct (items s) as [l0|] eqn:E; cbn in H; [|done]. injection H as <-.
      apply IH in E as (l & Hl & ->); [|cbn in Hn; lia|done]. eexists. split; [by eapply (sp_unit h1 h2 h3 h4)|done].
    + destruct (simple_escape e) as [c|] eqn:E; cbn [mbind option_bind] in H; [|done]. destruct (items s) as [l0|] eqn:E'; cbn in H; [|done]. injection H as <-.
      apply IH in E' as (l & Hl & ->); [|cbn in Hn; lia|done]. exists (Plain c :: l). split; [|done]. apply sp_escape; [|done]. by apply escape_iff.
Qed.
Lemma high_iff n : high_surrogate n = true <-> high n.
Proof. unfold high_surrogate, high. rewrite andb_true_iff, N.leb_le, N.ltb_lt. done. Qed.
Lemma low_iff n : low_surrogate n = true <-> low n.
Proof. unfold low_surrogate, low. rewrite andb_true_iff, N.leb_le, N.ltb_lt. done. Qed.
Lemma high_no n : high_surrogate n = false <-> ~ high n.
Proof. rewrite <- high_iff. by destruct (high_surrogate n). Qed.
Lemma low_no n : low_surrogate n = false <-> ~ low n.
Proof. rewrite <- low_iff. by destruct (low_surrogate n). Qed.
Lemma meaning_resolve l s : meaning l s -> s = resolve (map sym_item l).
Proof.
  induction 1 as [|c l s _ IH|n b l s Hh Hl Hb _ IH|n m b l s Hh Hl Hb _ IH|n u l s Hh Hno Hu _ IH|n u l s Hl Hu _ IH]; cbn [map sym_item resolve]; [done|by rewrite <- IH|..].
  - rewrite (proj2 (high_no n) Hh), (proj2 (low_no n) Hl). apply encodes_encode in Hb as ->. by rewrite <- IH.
  - rewrite (proj2 (high_iff n) Hh), (proj2 (low_iff m) Hl). apply encodes_encode in Hb as ->. by rewrite <- IH.
  - rewrite (proj2 (high_iff n) Hh). apply substitute_iff in Hu as ->. destruct l as [|[c|m] l]; cbn [map sym_item] in *; [by rewrite <- IH..|].
    rewrite (proj2 (low_no m)) by (by eapply Hno). by rewrite <- IH.
  - assert (Hh : ~ high n) by (unfold high, low in *; lia). rewrite (proj2 (high_no n) Hh), (proj2 (low_iff n) Hl). apply substitute_iff in Hu as ->. by rewrite <- IH.
Qed.
Lemma resolve_meaning raw l : spelled raw l -> meaning l (resolve (map sym_item l)).
Proof.
  assert (H : forall n l, (length l <= n)%nat -> Forall (fun x => match x with UtfUnit n => (n < 65536)%N | Plain _ => True end) l -> meaning l (resolve (map sym_item l))).
  { clear. induction n as [|n IH]; intros [|[c|m] l] Hn Hf; cbn in Hn; try lia; try (cbn; constructor); inversion Hf as [|? ? Hm Hf']; subst.
    - apply IH; [lia|done].
    - cbn [map sym_item resolve]. destruct (high_surrogate m) eqn:Eh.
      + apply high_iff in Eh. destruct l as [|[c|m'] l]; cbn [map sym_item].
        * apply mean_lone; [done|done|by apply substitute_iff|]. constructor.
        * apply mean_lone; [done|done|by apply substitute_iff|]. apply (IH (Plain c :: l)); [lia|done].
        * destruct (low_surrogate m') eqn:El.
          -- apply low_iff in El. apply mean_pair; [done|done| |].
             ++ apply encode_encodes; unfold high, low in *; lia.
             ++ apply IH; [cbn in Hn; lia|]. by inversion Hf'.
          -- apply low_no in El. apply mean_lone; [done| |by apply substitute_iff|].
             ++ by intros m'' l' [= <- <-].
             ++ apply (IH (UtfUnit m' :: l)); [lia|done].
      + apply high_no in Eh. destruct (low_surrogate m) eqn:El.
        * apply low_iff in El. apply mean_low; [done|by apply substitute_iff|]. apply IH; [lia|done].
        * apply low_no in El. apply mean_unit; [done|done| |apply IH; [lia|done]]. apply encode_encodes; unfold high, low in *; lia. }
  intros Hs. apply (H (length l)); [done|]. clear H.
  induction Hs as [|c s l _ _ _ _ IH|e c s l _ _ IH|h1 h2 h3 h4 n1 n2 n3 n4 s l E1 E2 E3 E4 _ IH]; constructor; try done.
  apply hex_plain in E1 as (_ & _ & _ & E1), E2 as (_ & _ & _ & E2), E3 as (_ & _ & _ & E3), E4 as (_ & _ & _ & E4). lia.
Qed.
Lemma read_string_iff s t r : read_string s = Some (t, r) <-> exists raw, s = append raw (String dquote r) /\ string_text raw t.
Proof.
  split.
  - unfold read_string. destruct (scan s) as [[raw r']|] eqn:E; cbn; [|done]. apply scan_ok in E as [-> Hr].
    unfold unquote. destruct (items raw) as [its|] eqn:Ei; cbn; [|done]. intros [= <- <-]. exists raw. split; [done|].
    apply items_spelled in Ei as (l & Hl & ->); [|done]. exists l, (resolve (map sym_item l)). split; [done|]. split; [by eapply resolve_meaning|apply repaired_clean].
  - intros (raw & -> & l & s0 & Hl & Hm & Hr). apply spelled_read in Hl as [Hi Hs]. unfold read_string. rewrite Hs. cbn [mbind option_bind].
    unfold unquote. rewrite Hi. cbn [mbind option_bind]. apply meaning_resolve in Hm as <-. apply repaired_fun in Hr as <-. done.
Qed.

(** ** Blanks *)
Lemma space_iff c : is_space c = true <-> c ∈ [" "; "009"; "010"; "013"]%char.
Proof.
  rewrite !elem_of_cons, elem_of_nil. split.
  - destruct c as [[] [] [] [] [] [] [] []]; intros H; first [discriminate H|repeat (first [by left|right])].
  - intros [->|[->|[->|[->|[]]]]]; done.
Qed.
Lemma skip_blank w s : blank w -> skip (append w s) = skip s.
Proof. induction 1 as [|c w Hc _ IH]; [done|]. cbn [String.append skip]. by rewrite (proj2 (space_iff c) Hc). Qed.
Lemma skip_split s : exists w, blank w /\ s = append w (skip s).
Proof.
  induction s as [|c s (w & Hw & E)]; [exists ""; by split; [constructor|]|]. cbn [skip]. destruct (is_space c) eqn:Ec.
  - exists (String c w). split; [constructor; [by apply space_iff|done]|]. cbn [String.append]. by rewrite <- E.
  - exists "". by split; [constructor|].
Qed.
Lemma skip_keep c s : is_space c = false -> skip (String c s) = String c s.
Proof. intros H. cbn [skip]. by rewrite H. Qed.
Lemma skip_blank_nil s : skip s = "" -> blank s.
Proof. destruct (skip_split s) as (w & Hw & E). intros H. rewrite H, append_nil in E. by subst. Qed.
Lemma blank_skip_nil w : blank w -> skip w = "".
Proof. intros H. rewrite <- (append_nil w). by rewrite skip_blank. Qed.

(** ** Values: what is read is a text *)
Lemma span_split s : forall t r, span_number s = (t, r) -> s = append t r.
Proof.
  induction s as [|c s IH]; intros t r; cbn [span_number]; [by intros [= <- <-]|]. destruct (number_char c); [|by intros [= <- <-]].
  destruct (span_number s) as [a b]. intros [= <- <-]. cbn [String.append]. f_equal. by apply IH.
Qed.
Lemma value_sound n :
  (forall s j r, value n s = Some (j, r) -> exists w t, s = append w (append t r) /\ blank w /\ value_text t j) /\
  (forall s l r, elements n s = Some (l, r) -> exists t, s = append t (String "]" r) /\ elements_text t l) /\
  (forall s l r, members n s = Some (l, r) -> exists t, s = append t (String "}" r) /\ members_text t l).
Proof.
  induction n as [|n (IHv & IHe & IHm)]; [done|]. split; [|split].
  - intros s j r. cbn [value]. destruct (skip_split s) as (w & Hw & Es). destruct (skip s) as [|c s1] eqn:Ek; [done|].
    destruct (ceqb c dquote) eqn:E1.
    { apply ceqb_true in E1 as ->. destruct (read_string s1) as [[t r']|] eqn:Er; [|done]. intros [= <- <-]. apply read_string_iff in Er as (raw & -> & Ht).
      exists w, (String "034" (append raw (String "034" ""))). split; [|split; [done|by constructor]].
      rewrite Es. cbn [String.append]. by rewrite append_assoc. }
    destruct (ceqb c "[") eqn:E2.
    { apply ceqb_true in E2 as ->. destruct (skip_split s1) as (w' & Hw' & Es1). destruct (skip s1) as [|d s2] eqn:Ek1; [done|].
      destruct (ceqb d "]") eqn:E3.
      - apply ceqb_true in E3 as ->. intros [= <- <-]. exists w, (String "[" (append w' "]")). split; [|split; [done|by constructor]].
        rewrite Es, Es1. cbn [String.append]. by rewrite append_assoc.
      - destruct (elements n s1) as [[l r']|] eqn:Er; [|done]. intros [= <- <-]. apply IHe in Er as (t & -> & Ht).
        exists w, (String "[" (append t "]")). split; [|split; [done|by constructor]].
        rewrite Es. cbn [String.append]. by rewrite append_assoc. }
    destruct (ceqb c "{") eqn:E3.
    { apply ceqb_true in E3 as ->. destruct (skip_split s1) as (w' & Hw' & Es1). destruct (skip s1) as [|d s2] eqn:Ek1; [done|].
      destruct (ceqb d "}") eqn:E4.
      - apply ceqb_true in E4 as ->. intros [= <- <-]. exists w, (String "{" (append w' "}")). split; [|split; [done|by constructor]].
        rewrite Es, Es1. cbn [String.append]. by rewrite append_assoc.
      - destruct (members n s1) as [[l r']|] eqn:Er; [|done]. intros [= <- <-]. apply IHm in Er as (t & -> & Ht).
        exists w, (String "{" (append t "}")). split; [|split; [done|by constructor]].
        rewrite Es. cbn [String.append]. by rewrite append_assoc. }
    destruct (number_char c) eqn:E4.
    { destruct (span_number (String c s1)) as [t r'] eqn:Er. destruct (is_number t) eqn:En; [|done]. intros [= <- <-].
      apply span_split in Er. apply number_iff in En. exists w, t. rewrite Es, Er. split; [done|]. split; [done|by constructor]. }
    destruct (strip_prefix "null" (String c s1)) as [r'|] eqn:Ep.
    { intros [= <- <-]. apply strip_prefix_some in Ep. exists w, "null". rewrite Es, Ep. split; [done|]. split; [done|constructor]. }
    clear Ep. destruct (strip_prefix "true" (String c s1)) as [r'|] eqn:Ep.
    { intros [= <- <-]. apply strip_prefix_some in Ep. exists w, "true". rewrite Es, Ep. split; [done|]. split; [done|constructor]. }
    clear Ep. destruct (strip_prefix "false" (String c s1)) as [r'|] eqn:Ep; [|done].
    intros [= <- <-]. apply strip_prefix_some in Ep. exists w, "false". rewrite Es, Ep. split; [done|]. split; [done|constructor].
  - intros s l r. cbn [elements]. destruct (value n s) as [[j s1]|] eqn:Ev; [|done]. cbn [mbind option_bind].
    apply IHv in Ev as (w & t & -> & Hw & Ht). destruct (skip_split s1) as (w' & Hw' & Es). destruct (skip s1) as [|c s2]; [done|].
    destruct (ceqb c ",") eqn:E1.
    + apply ceqb_true in E1 as ->. destruct (elements n s2) as [[l' r']|] eqn:Ee; [|done]. intros [= <- <-]. apply IHe in Ee as (t' & -> & Ht').
      exists (append w (append t (append w' (String "," t')))). split; [|by constructor]. rewrite Es, !append_assoc. cbn [String.append]. done.
    + destruct (ceqb c "]") eqn:E2; [|done]. apply ceqb_true in E2 as ->. intros [= <- <-].
      exists (append w (append t w')). split; [|by constructor]. by rewrite Es, !append_assoc.
  - intros s l r. cbn [members]. destruct (skip_split s) as (w1 & Hw1 & Es). destruct (skip s) as [|q s1]; [done|].
    destruct (ceqb q dquote) eqn:Eq; [|done]. apply ceqb_true in Eq as ->. destruct (read_string s1) as [[k s2]|] eqn:Er; [|done]. cbn [mbind option_bind].
    apply read_string_iff in Er as (raw & -> & Hk). destruct (skip_split s2) as (w2 & Hw2 & Es2). destruct (skip s2) as [|c s3]; [done|].
    destruct (ceqb c ":") eqn:Ec; [|done]. apply ceqb_true in Ec as ->. destruct (value n s3) as [[j s4]|] eqn:Ev; [|done]. cbn [mbind option_bind].
    apply IHv in Ev as (w3 & t & -> & Hw3 & Ht). destruct (skip_split s4) as (w4 & Hw4 & Es4). destruct (skip s4) as [|c s5]; [done|].
    destruct (ceqb c ",") eqn:E1.
    + apply ceqb_true in E1 as ->. destruct (members n s5) as [[l' r']|] eqn:Ee; [|done]. intros [= <- <-]. apply IHm in Ee as (t' & -> & Ht').
      eexists. split; [|by apply (mt_more w1 raw k w2 w3 t j w4 t' l')].
      rewrite Es, Es2, Es4. repeat (rewrite append_assoc; cbn [String.append]). reflexivity.
    + destruct (ceqb c "}") eqn:E2; [|done]. apply ceqb_true in E2 as ->. intros [= <- <-].
      eexists. split; [|by apply (mt_one w1 raw k w2 w3 t j w4)].
      rewrite Es, Es2, Es4. repeat (rewrite append_assoc; cbn [String.append]). reflexivity.
Qed.

(** ** Values: every text is read *)
Scheme value_text_mut := Minimality for value_text Sort Prop
  with elements_text_mut := Minimality for elements_text Sort Prop
  with members_text_mut := Minimality for members_text Sort Prop.
Combined Scheme text_mut from value_text_mut, elements_text_mut, members_text_mut.
Lemma value_head t j : value_text t j -> exists c r, t = String c r /\ is_space c = false /\ c <> "]"%char.
Proof.
  intros [| | |t' H|raw t' _|w _|s l _|w _|s l _]; try (by eexists _, _).
  apply number_head in H as (c & r & -> & Hc). exists c, r. split; [done|].
  split; [|by intros ->]. destruct (is_space c) eqn:E; [|done]. exfalso. apply space_iff in E. rewrite !elem_of_cons, elem_of_nil in E.
  destruct E as [->|[->|[->|[->|[]]]]]; done.
Qed.
Lemma elements_head t l : elements_text t l -> exists w c r, t = append w (String c r) /\ blank w /\ is_space c = false /\ c <> "]"%char.
Proof.
  intros [w s w' j Hw Hs _|w s w' j r l' Hw Hs _ _]; destruct (value_head _ _ Hs) as (c & s' & -> & H1 & H2); by eexists w, c, _.
Qed.
Lemma members_head t l : members_text t l -> exists w r, t = append w (String "034" r) /\ blank w.
Proof. intros [w1 raw k w2 w3 s j w4 Hw _ _ _ _ _|w1 raw k w2 w3 s j w4 r l' Hw _ _ _ _ _ _]; by eexists w1, _. Qed.
Lemma ends_blank w c r : blank w -> number_char c = false -> ends (append w (String c r)).
Proof.
  intros Hw Hc. destruct Hw as [|d w Hd _]; [done|]. cbn. rewrite !elem_of_cons, elem_of_nil in Hd. destruct Hd as [->|[->|[->|[->|[]]]]]; done.
Qed.
Lemma value_complete :
  (forall t j, value_text t j -> forall n w r, (2 * String.length t <= n)%nat -> blank w -> ends r -> value n (append w (append t r)) = Some (j, r)) /\
  (forall t l, elements_text t l -> forall n r, (2 * String.length t + 1 <= n)%nat -> elements n (append t (String "]" r)) = Some (l, r)) /\
  (forall t l, members_text t l -> forall n r, (2 * String.length t + 1 <= n)%nat -> members n (append t (String "}" r)) = Some (l, r)).
Proof.
  apply text_mut.
  - intros [|n] w r Hn Hw _; [cbn in Hn; lia|]. cbn [value]. by rewrite skip_blank.
  - intros [|n] w r Hn Hw _; [cbn in Hn; lia|]. cbn [value]. by rewrite skip_blank.
  - intros [|n] w r Hn Hw _; [cbn in Hn; lia|]. cbn [value]. by rewrite skip_blank.
  - intros t Ht [|n] w r Hn Hw He.
    { destruct (number_head _ Ht) as (c & t' & -> & _). cbn in Hn. lia. }
    destruct (value_head _ _ (vt_num _ Ht)) as (c & t' & -> & Hs & _). destruct (number_head _ Ht) as (c' & t'' & [= <- <-] & Hc).
    pose proof (span_all _ r (number_chars _ Ht) He) as Hspan.
    cbn [value]. rewrite skip_blank by done. cbn [String.append] in *. rewrite skip_keep by done.
    rewrite (proj2 (ceqb_false c dquote)), (proj2 (ceqb_false c "[")), (proj2 (ceqb_false c "{")) by (by intros ->). rewrite Hc, Hspan.
    by rewrite (proj2 (number_iff _) Ht).
  - intros raw t Ht [|n] w r Hn Hw _; [cbn in Hn; lia|]. cbn [value]. rewrite skip_blank by done. cbn [String.append]. rewrite skip_keep by done.
    replace (ceqb "034" dquote) with true by done.
    assert (Er : read_string (append (append raw (String "034" "")) r) = Some (t, r)); [|by rewrite Er].
    apply read_string_iff. exists raw. split; [|done]. by rewrite append_assoc.
  - intros w' Hw' [|n] w r Hn Hw _; [cbn in Hn; lia|]. cbn [value]. rewrite skip_blank by done. cbn [String.append]. rewrite skip_keep by done.
    cbn [ceqb]. rewrite append_assoc, skip_blank by done. done.
  - intros s l Hl IH [|n] w r Hn Hw _; [cbn in Hn; lia|]. cbn [value]. rewrite skip_blank by done. cbn [String.append]. rewrite skip_keep by done.
    rewrite append_assoc. cbn [String.append]. destruct (elements_head _ _ Hl) as (w' & c & s' & Es & Hw' & Hc & Hb).
    assert (Ek : skip (append s (String "]" r)) = String c (append s' (String "]" r))).
    { rewrite Es, append_assoc, skip_blank by done. cbn [String.append]. by apply skip_keep. }
    rewrite Ek, (proj2 (ceqb_false c "]") Hb). cbn [String.length] in Hn. rewrite length_append in Hn. cbn [String.length] in Hn.
    rewrite IH by lia. done.
  - intros w' Hw' [|n] w r Hn Hw _; [cbn in Hn; lia|]. cbn [value]. rewrite skip_blank by done. cbn [String.append]. rewrite skip_keep by done.
    cbn [ceqb]. rewrite append_assoc, skip_blank by done. done.
  - intros s l Hl IH [|n] w r Hn Hw _; [cbn in Hn; lia|]. cbn [value]. rewrite skip_blank by done. cbn [String.append]. rewrite skip_keep by done.
    rewrite append_assoc. cbn [String.append]. destruct (members_head _ _ Hl) as (w' & s' & Es & Hw').
    assert (Ek : skip (append s (String "}" r)) = String "034" (append s' (String "}" r))).
    { rewrite Es, append_assoc, skip_blank by done. cbn [String.append]. by apply skip_keep. }
    rewrite Ek. cbn [String.length] in Hn. rewrite length_append in Hn. cbn [String.length] in Hn.
    assert (Em : members n (append s (String "}" r)) = Some (l, r)) by (apply IH; lia).
    replace (ceqb "{" dquote) with false by done. replace (ceqb "{" "[") with false by done. replace (ceqb "{" "{") with true by done.
    replace (ceqb "034" "}") with false by done. by rewrite Em.
  - intros w s w' j Hw Hs IH Hw' [|n] r Hn; [lia|]. cbn [elements]. rewrite !append_assoc. rewrite !length_append in Hn.
    rewrite IH by (try apply ends_blank; try done; lia). cbn [mbind option_bind]. rewrite skip_blank by done. done.
  - intros w s w' j r' l Hw Hs IH Hw' Hl IHl [|n] r Hn; [lia|]. cbn [elements]. rewrite !append_assoc. cbn [String.append]. rewrite !length_append in Hn. cbn [String.length] in Hn.
    rewrite IH by (try apply ends_blank; try done; lia). cbn [mbind option_bind]. rewrite skip_blank by done. rewrite skip_keep by done.
    replace (ceqb "," ",") with true by done. rewrite IHl by lia. done.
  - intros w1 raw k w2 w3 s j w4 H1 Hk H2 H3 Hs IH H4 [|n] r Hn; [lia|]. cbn [members].
    repeat (rewrite !append_assoc; cbn [String.append]). repeat (rewrite !length_append in Hn; cbn [String.length] in Hn).
    rewrite skip_blank by done. rewrite skip_keep by done. replace (ceqb "034" dquote) with true by done.
    match goal with |- context [read_string (append raw (String "034" ?x))] =>
      assert (Er : read_string (append raw (String "034" x)) = Some (k, x)) by (apply read_string_iff; by exists raw) end.
    rewrite Er. cbn [mbind option_bind]. rewrite skip_blank by done. rewrite skip_keep by done. replace (ceqb ":" ":") with true by done.
    rewrite IH by (try apply ends_blank; try done; lia). cbn [mbind option_bind]. rewrite skip_blank by done. done.
  - intros w1 raw k w2 w3 s j w4 r' l H1 Hk H2 H3 Hs IH H4 Hl IHl [|n] r Hn; [lia|]. cbn [members].
    repeat (rewrite !append_assoc; cbn [String.append]). repeat (rewrite !length_append in Hn; cbn [String.length] in Hn).
    rewrite skip_blank by done. rewrite skip_keep by done. replace (ceqb "034" dquote) with true by done.
    match goal with |- context [read_string (append raw (String "034" ?x))] =>
      assert (Er : read_string (append raw (String "034" x)) = Some (k, x)) by (apply read_string_iff; by exists raw) end.
    rewrite Er. cbn [mbind option_bind]. rewrite skip_blank by done. rewrite skip_keep by done. replace (ceqb ":" ":") with true by done.
    rewrite IH by (try apply ends_blank; try done; lia). cbn [mbind option_bind]. rewrite skip_blank by done. rewrite skip_keep by done.
    replace (ceqb "," ",") with true by done. rewrite IHl by lia. done.
Qed.
Lemma whole_iff t j : read_whole t = Some j <-> json_text t j.
Proof.
  unfold read_whole. split.
  - destruct (value (enough t) t) as [[j' r]|] eqn:Ev; [|done]. cbn [mbind option_bind]. case_bool_decide as Hr; [|done]. intros [= <-].
    apply value_sound in Ev as (w & s & -> & Hw & Hs). exists w, s, r. split; [done|]. split; [done|]. split; [done|]. by apply skip_blank_nil.
  - intros (w & s & w' & -> & Hw & Hs & Hw').
    assert (He : ends w') by (destruct Hw' as [|c w' Hc _]; [done|]; rewrite !elem_of_cons, elem_of_nil in Hc; destruct Hc as [->|[->|[->|[->|[]]]]]; done).
    rewrite (proj1 value_complete s j Hs) by (try done; unfold enough; rewrite !length_append; lia). cbn [mbind option_bind].
    rewrite blank_skip_nil by done. by rewrite bool_decide_true.
Qed.
Lemma first_sound t j : read_first t = Some j -> exists w s r, t = append w (append s r) /\ blank w /\ value_text s j.
Proof.
  unfold read_first. destruct (value (enough t) t) as [[j' r]|] eqn:Ev; [|done]. intros [= <-].
  apply value_sound in Ev as (w & s & -> & Hw & Hs). by exists w, s, r.
Qed.
Lemma first_complete w s r j : blank w -> value_text s j -> ends r -> read_first (append w (append s r)) = Some j.
Proof.
  intros Hw Hs He. unfold read_first. rewrite (proj1 value_complete s j Hs); [done| |done|done]. unfold enough. rewrite !length_append. lia.
Qed.
