(** Reading one RFC 5424 message. *)
From Coq Require Import Ascii String.
From stdpp Require Import prelude gmap strings list.
From Verif.Base Require Import GoInt Envelope Str Dec.
From Verif.Json Require Import Spec.
From Verif.Times Require Import Texts SpecTexts Calendar TextsProofs.
From Verif.Syslog Require Import Model Message SpecMessage.
Local Open Scope string_scope.
Local Open Scope Z_scope.
Local Arguments String.append !_ _ / : simpl nomatch.

Lemma between_range lo hi c : between lo hi c = true <-> range lo hi c.
Proof. unfold between, range, byte. rewrite andb_true_iff, !Nat.leb_le. done. Qed.
Lemma bytes_all_iff (p : ascii -> bool) (P : ascii -> Prop) s : (forall c, p c = true <-> P c) -> str_all p s = true <-> bytes_all P s.
Proof.
  intros HP. induction s as [|c s IH]; cbn; [split; constructor|]. rewrite andb_true_iff, HP, IH. split; [intros [? ?]; by constructor|by inversion 1].
Qed.

(** ** Spans *)
Definition stops (p : ascii -> bool) (r : string) : Prop := match r with String c _ => p c = false | EmptyString => True end.
Lemma span_inv p s w r : span p s = (w, r) -> s = w ++ r /\ str_all p w = true /\ stops p r.
Proof.
  revert w r. induction s as [|c s IH]; intros w r; cbn.
  - intros H. by injection H as <- <-.
  - destruct (p c) eqn:Ec.
    + destruct (span p s) as [w' t]. intros H. injection H as <- <-. destruct (IH _ _ eq_refl) as (-> & ? & ?). cbn. by rewrite Ec.
    + intros H. by injection H as <- <-.
Qed.
Lemma span_to p w r : str_all p w = true -> stops p r -> span p (w ++ r) = (w, r).
Proof.
  intros Hw Hr. induction w as [|c w IH]; cbn in *.
  - destruct r as [|c r]; cbn in *; [done|]. by rewrite Hr.
  - apply andb_true_iff in Hw as [-> Hw]. by rewrite IH.
Qed.
Lemma some_of_inv n p s w r : some_of n p s = Some (w, r) -> s = w ++ r /\ str_all p w = true /\ (1 <= String.length w <= n)%nat /\ stops p r.
Proof.
  unfold some_of. destruct (span p s) as [w' t] eqn:E. apply span_inv in E as (-> & ? & ?).
  destruct (_ && _)%nat eqn:El; [|done]. intros H1. injection H1 as <- <-. apply andb_true_iff in El as [?%Nat.leb_le ?%Nat.leb_le]. done.
Qed.
Lemma some_of_to n p w r : str_all p w = true -> (1 <= String.length w <= n)%nat -> stops p r -> some_of n p (w ++ r) = Some (w, r).
Proof.
  intros Hw [Hl1 Hl2] Hr. unfold some_of. rewrite span_to by done. apply Nat.leb_le in Hl1, Hl2. by rewrite Hl1, Hl2.
Qed.
Lemma digits_all_from w : forall acc, str_all is_digit w = true <-> is_Some (digits_from acc w).
Proof.
  induction w as [|c w IH]; intros acc; cbn; [split; [by eexists|done]|]. destruct (is_digit c); cbn; [apply IH|]. split; [done|]. by intros [? ?].
Qed.
Lemma numeral_all w n : numeral w n -> str_all is_digit w = true /\ (1 <= String.length w)%nat.
Proof.
  intros H%numeral_digits. destruct w as [|c w]; [done|]. split; [|cbn; lia]. unfold digits in H. by apply (digits_all_from _ 0); eexists.
Qed.
Lemma all_numeral w : str_all is_digit w = true -> (1 <= String.length w)%nat -> exists n, numeral w n.
Proof.
  intros H Hl. apply (digits_all_from _ 0) in H as [n Hn]. exists n. apply digits_numeral. by destruct w; [cbn in Hl; lia|].
Qed.

(** ** Priority and version *)
Lemma digits_lower w : forall acc n, digits_from acc w = Some n -> acc * 10 ^ Z.of_nat (String.length w) <= n.
Proof.
  induction w as [|c w IH]; intros acc n; cbn [digits_from String.length].
  - intros H. injection H as <-. lia.
  - destruct (is_digit c) eqn:Ec; [|done]. intros H%IH. apply val_range in Ec.
    rewrite Nat2Z.inj_succ, Z.pow_succ_r by lia. pose proof (Z.pow_pos_nonneg 10 (Z.of_nat (String.length w))). nia.
Qed.
Lemma priority_len s p : priority s p -> (String.length s <= 3)%nat.
Proof.
  intros (Hn & Hp & Hz). destruct Hz as [->|Hz]; [cbn; lia|]. apply numeral_digits in Hn. destruct s as [|c s]; [done|].
  cbn [digits digits_from] in Hn. destruct (is_digit c) eqn:Ec; [|done]. apply digits_lower in Hn.
  assert (Hc : 1 <= digit_val c).
  { unfold digit_val, is_digit in *. apply andb_true_iff in Ec as [E1%Nat.leb_le E2%Nat.leb_le].
    destruct (decide (nat_of_ascii c = 48)%nat) as [E|?]; [|lia]. exfalso. apply Hz. cbn. f_equal.
    rewrite <-(ascii_nat_embedding c), E. done. }
  cbn [String.length]. destruct (decide (String.length s <= 2)%nat) as [?|Hl]; [lia|]. exfalso.
  assert (10 ^ 3 <= 10 ^ Z.of_nat (String.length s)) by (apply Z.pow_le_mono_r; lia).
  change (10 ^ 3) with 1000 in *. nia.
Qed.
Lemma leading_iff w : w <> "" -> leading_zero w = false <-> w = "0" \/ String.get 0 w <> Some "0"%char.
Proof.
  destruct w as [|c [|d w]]; [done| |]; intros _; cbn.
  - split; [|done]. intros _. destruct (decide (c = "0"%char)) as [->|?]; [by left|right; congruence].
  - rewrite ceqb_no. split; [intros ?; right; congruence|]. intros [?|H]; [done|]. intros ->. done.
Qed.
Lemma get_priority_iff s p r : get_priority s = Some (p, r) <-> exists w, priority w p /\ s = "<" ++ w ++ ">" ++ r.
Proof.
  split.
  - unfold get_priority. intros H. destruct (skip_byte "<" s) as [s1|] eqn:E1; [|done]. cbn [mbind option_bind] in H. apply skip_byte_iff in E1 as ->.
    destruct (some_of 3 is_digit s1) as [[w s2]|] eqn:E2; [|done]. cbn [mbind option_bind] in H. apply some_of_inv in E2 as (-> & Hw & Hl & _).
    destruct (digits w) as [p'|] eqn:E3; [|done]. cbn [mbind option_bind] in H.
    destruct (skip_byte ">" s2) as [s3|] eqn:E4; [|done]. cbn [mbind option_bind] in H. apply skip_byte_iff in E4 as ->.
    destruct (leading_zero w) eqn:Ez; [done|]. destruct (Z.ltb_spec 191 p') as [?|?]; [done|]. cbn in H. injection H as <- <-.
    exists w. split; [|done]. split; [by apply digits_numeral|]. split; [done|]. apply leading_iff; [|done]. by intros ->.
  - intros (w & Hp & ->). pose proof (priority_len _ _ Hp) as Hl. destruct Hp as (Hn & Hp & Hz). pose proof (numeral_all _ _ Hn) as [Ha Hl'].
    unfold get_priority. cbn [String.append]. rewrite (proj2 (skip_byte_iff _ _ _) eq_refl). cbn [mbind option_bind].
    rewrite some_of_to by (done || lia). cbn [mbind option_bind]. rewrite (numeral_digits _ _ Hn). cbn [mbind option_bind].
    rewrite (proj2 (skip_byte_iff _ _ _) eq_refl). cbn [mbind option_bind]. rewrite (proj2 (leading_iff w (numeral_nonempty _ _ Hn)) Hz).
    destruct (Z.ltb_spec 191 p) as [?|?]; [lia|]. done.
Qed.
Lemma get_version_inv s r : get_version s = Some r -> exists w, version w /\ s = w ++ r.
Proof.
  unfold get_version. intros H. destruct (some_of 3 is_digit s) as [[w s2]|] eqn:E2; [|done]. cbn [mbind option_bind] in H.
  apply some_of_inv in E2 as (-> & Hw & Hl & _). destruct w as [|c w]; [done|]. destruct (ceqb c "0") eqn:Ec; [done|]. injection H as <-.
  exists (String c w). split; [|done]. split; [by apply all_numeral; [|cbn; lia]|]. split; [lia|]. cbn. apply ceqb_no in Ec. congruence.
Qed.
Lemma get_version_to w r : version w -> stops is_digit r -> get_version (w ++ r) = Some r.
Proof.
  intros ([n Hn] & Hl & Hz) Hr. destruct (numeral_all _ _ Hn) as [Ha Hl']. unfold get_version. rewrite some_of_to by (done || lia). cbn [mbind option_bind].
  destruct w as [|c w]; [by apply numeral_nonempty in Hn|]. destruct (ceqb c "0") eqn:Ec; [|done]. apply ceqb_iff in Ec as ->. done.
Qed.

(** ** The time *)
Lemma two_digits_iff lo hi s r : two_digits lo hi s = Some r <-> exists w n, digits_of 2 w n /\ lo <= n <= hi /\ s = w ++ r.
Proof.
  unfold two_digits. split.
  - destruct (getnum true s) as [[n s1]|] eqn:E; [|done]. cbn [mbind option_bind]. apply getnum_two in E as (w & Hw & ->).
    destruct (Z.leb_spec lo n) as [?|?]; [|done]. destruct (Z.leb_spec n hi) as [?|?]; [|done]. intros HH. injection HH as <-. by exists w, n.
  - intros (w & n & Hw & [H1 H2] & ->). rewrite (proj2 (getnum_two _ n r) (ex_intro _ w (conj Hw eq_refl))). cbn [mbind option_bind].
    apply Z.leb_le in H1, H2. by rewrite H1, H2.
Qed.
Lemma get_micros_inv s r : get_micros s = Some r -> exists f ns, micros f ns /\ s = f ++ r.
Proof.
  unfold get_micros. destruct (skip_byte "." s) as [s1|] eqn:E.
  - apply skip_byte_iff in E as ->. destruct (some_of 6 is_digit s1) as [[w s2]|] eqn:E2; [|done]. cbn [mbind option_bind]. intros H. injection H as <-.
    apply some_of_inv in E2 as (-> & Hw & Hl & _). destruct (all_numeral w Hw) as [n Hn]; [lia|].
    exists (String "." w). eexists. split; [|done]. split; [|cbn; lia]. apply (part (String.length w)); [by split|lia].
  - intros H. injection H as <-. exists "", 0. split; [|done]. split; [constructor|cbn; lia].
Qed.
Lemma get_micros_to f ns r : micros f ns -> zone_first r -> get_micros (f ++ r) = Some r.
Proof.
  intros [Hf Hl] (c & r' & -> & Hc). destruct Hf as [|k f n [Hn Hk] _].
  - cbn [String.append]. unfold get_micros. destruct (skip_byte _ _) as [s1|] eqn:E; [|done]. apply skip_byte_iff in E.
    injection E as -> _. by destruct Hc as [?|[?|?]].
  - destruct (numeral_all _ _ Hn) as [Ha Hl']. unfold get_micros. cbn [String.append]. rewrite (proj2 (skip_byte_iff _ _ _) eq_refl).
    cbn [String.length] in Hl. rewrite some_of_to; [done|done|lia|]. by destruct Hc as [->|[->| ->]].
Qed.
Lemma get_offset_iff s r : get_offset s = Some r <-> exists z off, offset z off /\ s = z ++ r.
Proof.
  split.
  - destruct s as [|c s]; [done|]. cbn [get_offset]. destruct (ceqb c "Z") eqn:EZ.
    + apply ceqb_iff in EZ as ->. intros H. injection H as <-. exists "Z", 0. split; [constructor|done].
    + destruct (ceqb c "+" || ceqb c "-") eqn:Es; [|done].
      destruct (two_digits 0 23 s) as [s1|] eqn:E1; [|done]. cbn [mbind option_bind]. destruct (skip_byte ":" s1) as [s2|] eqn:E2; [|done]. cbn [mbind option_bind].
      intros E3. apply two_digits_iff in E1 as (a & h & Ha & Hh & ->). apply skip_byte_iff in E2 as ->. apply two_digits_iff in E3 as (b & m & Hb & Hm & ->).
      apply orb_true_iff in Es as [Es|Es]; apply ceqb_iff in Es as ->; eexists _, _; (split; [|]).
      * apply off_east; [exact Ha|lia|exact Hb|lia].
      * cbn. by rewrite tapp_assoc.
      * apply off_west; [exact Ha|lia|exact Hb|lia].
      * cbn. by rewrite tapp_assoc.
  - intros (z & off & Hz & ->). assert (P : forall w n, digits_of 2 w n -> 0 <= n).
    { intros w n (x & y & -> & Hx%val_range & Hy%val_range & ->)%two_iff. lia. }
    destruct Hz as [|a b h m Ha Hh Hb Hm|a b h m Ha Hh Hb Hm]; [done| |]; cbn [String.append get_offset].
    all: rewrite tapp_assoc; cbn [String.append].
    all: rewrite (proj2 (two_digits_iff 0 23 (a ++ _) _)) by (exists a, h; split; [done|]; split; [pose proof (P _ _ Ha); lia|done]).
    all: cbn -[two_digits skip_byte String.append]; rewrite (proj2 (skip_byte_iff _ _ _) eq_refl); cbn -[two_digits skip_byte String.append].
    all: rewrite (proj2 (two_digits_iff 0 59 (b ++ r) r)) by (exists b, m; split; [done|]; split; [pose proof (P _ _ Hb); lia|done]); done.
Qed.
Lemma offset_zone z off : offset z off -> zone some_offset z off.
Proof.
  intros [|a b h m Ha Hh Hb Hm|a b h m Ha Hh Hb Hm]; constructor; unfold some_offset, signed_numeral, digits_of in *; destruct Ha, Hb; auto.
Qed.
Lemma two_pos w n : digits_of 2 w n -> 0 <= n.
Proof. intros (x & y & -> & Hx%val_range & Hy%val_range & ->)%two_iff. lia. Qed.
Lemma stamp_loose s t : stamp s t -> loose3339 s t.
Proof.
  intros [Y M D h mi se f z y mo d ho mn sc ns off n HY HM HD Hh Hmi Hse Hr Hn H24 Hm60 Hs60 [Hf _] Hz].
  apply (at_moment _ _ Y M D h mi se f z y mo d ho mn sc ns off n); try done; [by right|by apply offset_zone].
Qed.
Definition datetime_ok (s : string) : Prop := datetime_shape s = Some "".
Lemma datetime_to s t : stamp s t -> datetime_ok s.
Proof.
  intros [Y M D h mi se f z y mo d ho mn sc ns off n HY HM HD Hh Hmi Hse Hr Hn H24 Hm60 Hs60 Hf Hz].
  apply real_iff in Hr as [Hmo Hd]. assert (d <= 31).
  { pose proof (proj2 (length_iff y mo (days_in mo y)) (conj Hmo eq_refl)) as HL. remember (days_in mo y) as nd; clear Heqnd; inversion HL; subst; lia. }
  pose proof (two_pos _ _ Hh). pose proof (two_pos _ _ Hmi). pose proof (two_pos _ _ Hse).
  unfold datetime_ok, datetime_shape.
  rewrite (proj2 (get_year_iff _ y _) (ex_intro _ Y (conj HY eq_refl))). cbn [mbind option_bind String.append].
  rewrite (proj2 (skip_byte_iff _ _ _) eq_refl). cbn [mbind option_bind].
  rewrite (proj2 (two_digits_iff 1 12 (M ++ _) _)) by (exists M, mo; auto). cbn [mbind option_bind String.append].
  rewrite (proj2 (skip_byte_iff _ _ _) eq_refl). cbn [mbind option_bind].
  rewrite (proj2 (two_digits_iff 1 31 (D ++ _) _)) by (exists D, d; split; [done|]; split; [lia|done]). cbn [mbind option_bind String.append].
  rewrite (proj2 (skip_byte_iff _ _ _) eq_refl). cbn [mbind option_bind].
  rewrite (proj2 (two_digits_iff 0 23 (h ++ _) _)) by (exists h, ho; split; [done|]; split; [lia|done]). cbn [mbind option_bind String.append].
  rewrite (proj2 (skip_byte_iff _ _ _) eq_refl). cbn [mbind option_bind].
  rewrite (proj2 (two_digits_iff 0 59 (mi ++ _) _)) by (exists mi, mn; split; [done|]; split; [lia|done]). cbn [mbind option_bind String.append].
  rewrite (proj2 (skip_byte_iff _ _ _) eq_refl). cbn [mbind option_bind].
  rewrite (proj2 (two_digits_iff 0 59 (se ++ _) _)) by (exists se, sc; split; [done|]; split; [lia|done]). cbn [mbind option_bind String.append].
  rewrite (get_micros_to f ns) by (done || (rewrite <-(tapp_nil z); eapply zone_starts, offset_zone, Hz)). cbn [mbind option_bind].
  apply get_offset_iff. exists z, off. by rewrite tapp_nil.
Qed.
Lemma datetime_stamp s t : datetime_ok s -> rfc3339_text s = Some t -> stamp s t.
Proof.
  unfold datetime_ok, datetime_shape. intros H Ht. pose proof (proj1 (text_iff _ _) Ht) as HL.
  destruct (get_year s) as [[y s1]|] eqn:E1; [|done]. cbn [mbind option_bind] in H. apply get_year_iff in E1 as (Y & HY & ->).
  destruct (skip_byte "-" s1) as [s2|] eqn:E2; [|done]. cbn [mbind option_bind] in H. apply skip_byte_iff in E2 as ->.
  destruct (two_digits 1 12 s2) as [s3|] eqn:E3; [|done]. cbn [mbind option_bind] in H. apply two_digits_iff in E3 as (M & mo & HM & Hmo & ->).
  destruct (skip_byte "-" s3) as [s4|] eqn:E4; [|done]. cbn [mbind option_bind] in H. apply skip_byte_iff in E4 as ->.
  destruct (two_digits 1 31 s4) as [s5|] eqn:E5; [|done]. cbn [mbind option_bind] in H. apply two_digits_iff in E5 as (D & d & HD & Hd & ->).
  destruct (skip_byte "T" s5) as [s6|] eqn:E6; [|done]. cbn [mbind option_bind] in H. apply skip_byte_iff in E6 as ->.
  destruct (two_digits 0 23 s6) as [s7|] eqn:E7; [|done]. cbn [mbind option_bind] in H. apply two_digits_iff in E7 as (h & ho & Hh & Hho & ->).
  destruct (skip_byte ":" s7) as [s8|] eqn:E8; [|done]. cbn [mbind option_bind] in H. apply skip_byte_iff in E8 as ->.
  destruct (two_digits 0 59 s8) as [s9|] eqn:E9; [|done]. cbn [mbind option_bind] in H. apply two_digits_iff in E9 as (mi & mn & Hmi & Hmn & ->).
  destruct (skip_byte ":" s9) as [sa|] eqn:Ea; [|done]. cbn [mbind option_bind] in H. apply skip_byte_iff in Ea as ->.
  destruct (two_digits 0 59 sa) as [sb|] eqn:Eb; [|done]. cbn [mbind option_bind] in H. apply two_digits_iff in Eb as (se & sc & Hse & Hsc & ->).
  destruct (get_micros sb) as [sd|] eqn:Ec; [|done]. cbn [mbind option_bind] in H. apply get_micros_inv in Ec as (f & ns & Hf & ->).
  apply get_offset_iff in H as (z & off & Hz & ->). rewrite tapp_nil in *.
  assert (Hr : real (y, mo, d)).
  { inversion HL as [Y' M' D' h' mi' se' f' z' y' mo' d' ho' mn' sc' ns' off' n' HY' HM' HD' _ _ _ Hr' _ _ _ _ _ _ Es Et].
    apply four_iff in HY as (a1 & a2 & a3 & a4 & -> & _ & _ & _ & _ & ->), HY' as (b1 & b2 & b3 & b4 & -> & _ & _ & _ & _ & ->).
    apply two_iff in HM as (a5 & a6 & -> & _ & _ & ->), HM' as (b5 & b6 & -> & _ & _ & ->).
    apply two_iff in HD as (a7 & a8 & -> & _ & _ & ->), HD' as (b7 & b8 & -> & _ & _ & ->).
    cbn in Es. by injection Es as -> -> -> -> -> -> -> -> _. }
  assert (HS : stamp (Y ++ "-" ++ M ++ "-" ++ D ++ "T" ++ h ++ ":" ++ mi ++ ":" ++ se ++ f ++ z)
      ((day_no (y, mo, d) * 86400 + ho * 3600 + mn * 60 + sc - off) * 1000000000 + ns)).
  { apply at_stamp with (y := y) (mo := mo) (d := d); try done; try lia. by apply dated_iff. }
  pose proof (proj2 (text_iff _ _) (stamp_loose _ _ HS)) as Ht2. cbn [String.append] in Ht, Ht2 |- *. rewrite Ht in Ht2. injection Ht2 as ->. exact HS.
Qed.
Lemma stamp_iff s t : datetime_ok s /\ rfc3339_text s = Some t <-> stamp s t.
Proof. split; [intros [? ?]; by apply datetime_stamp|]. intros H. split; [by eapply datetime_to|by apply text_iff, stamp_loose]. Qed.
Lemma space_free s t : stamp s t -> str_all not_space s = true.
Proof.
  assert (A : forall a b, str_all not_space (a ++ b) = str_all not_space a && str_all not_space b).
  { intros a b. induction a as [|c a IH]; [done|]. cbn. by rewrite IH, andb_assoc. }
  assert (N : forall w n, numeral w n -> str_all not_space w = true).
  { intros w n [H _]%numeral_all. induction w as [|c w IH]; [done|]. cbn in *. apply andb_true_iff in H as [Hc H]. rewrite IH by done.
    unfold not_space. destruct (ceqb c " ") eqn:E; [|done]. apply ceqb_iff in E as ->. done. }
  intros [Y M D h mi se f z y mo d ho mn sc ns off n [HY _] [HM _] [HD _] [Hh _] [Hmi _] [Hse _] Hr Hn H24 Hm60 Hs60 [Hf _] Hz].
  assert (Ef : str_all not_space f = true) by (destruct Hf as [|k f n' [Hf _] _]; [done|exact (N _ _ Hf)]).
  assert (Ez : str_all not_space z = true).
  { destruct Hz as [|a b h' m [Ha _] _ [Hb _] _|a b h' m [Ha _] _ [Hb _] _]; [done| |]; rewrite !A, (N _ _ Ha), (N _ _ Hb); done. }
  rewrite !A, (N _ _ HY), (N _ _ HM), (N _ _ HD), (N _ _ Hh), (N _ _ Hmi), (N _ _ Hse), Ef, Ez. done.
Qed.
Lemma get_timestamp_inv s t r : get_timestamp s = Some (t, r) -> exists w, optional stamp w t /\ s = w ++ r.
Proof.
  unfold get_timestamp. destruct (span not_space s) as [w r'] eqn:E. apply span_inv in E as (-> & _ & _).
  destruct (String.eqb_spec w "-") as [->|Hne].
  - intros H. injection H as <- <-. exists "-". split; [constructor|done].
  - destruct (datetime_shape w) as [[|]|] eqn:Ed; try done. destruct (rfc3339_text w) as [t'|] eqn:Et; [|done]. cbn. intros H. injection H as <- <-.
    exists w. split; [|done]. constructor; [done|]. by apply datetime_stamp.
Qed.
Lemma get_timestamp_to w t r : optional stamp w t -> get_timestamp (w ++ String " " r) = Some (t, String " " r).
Proof.
  intros [|s a Hne Hs]; [done|]. unfold get_timestamp. rewrite span_to by (done || by eapply space_free).
  destruct (String.eqb_spec s "-") as [->|_]; [done|]. rewrite (datetime_to _ _ Hs). by rewrite (proj2 (text_iff _ _) (stamp_loose _ _ Hs)).
Qed.

(** ** Fields *)
Lemma get_field_inv n s a r : get_field n s = Some (a, r) -> exists w, field n w a /\ s = w ++ r.
Proof.
  unfold get_field. destruct (some_of n print_us_ascii s) as [[w r']|] eqn:E; [|done]. cbn [mbind option_bind]. intros H. injection H as <- <-.
  apply some_of_inv in E as (-> & Hw & Hl & _). exists w. split; [|done]. destruct (String.eqb_spec w "-") as [->|Hne]; [constructor|].
  constructor; [done|]. split; [done|]. split; [|done]. by apply (bytes_all_iff print_us_ascii); [intros c; apply between_range|].
Qed.
Lemma get_field_to n w a r : (1 <= n)%nat -> field n w a -> get_field n (w ++ String " " r) = Some (a, String " " r).
Proof.
  intros Hn0 H. assert (Hw : word n w) by (destruct H as [|s a' _ [_ H]]; [split; [|cbn; lia]; constructor; [by apply (between_range 33 126)|constructor]|done]).
  unfold get_field. destruct Hw as [Hw Hl]. apply (bytes_all_iff print_us_ascii) in Hw; [|intros c; apply between_range].
  rewrite some_of_to by done. cbn [mbind option_bind]. destruct H as [|s a' Hne [-> _]]; [done|].
  destruct (String.eqb_spec a' "-") as [->|_]; [done|]. done.
Qed.

(** ** UTF-8 *)
Lemma utf8_ok_to s : utf8 s -> utf8_ok [] s = true.
Proof.
  assert (R : forall lo hi c, range lo hi c -> between lo hi c = true) by (intros; by apply between_range).
  assert (F : forall lo hi c, ~ range lo hi c -> between lo hi c = false).
  { intros lo hi c H. destruct (between lo hi c) eqn:E; [|done]. by apply between_range in E. }
  assert (Q : forall lo hi st c s, range lo hi c -> utf8_ok st s = true -> utf8_ok ((lo, hi) :: st) (String c s) = true).
  { intros lo hi st c s' H1 H2. cbn [utf8_ok utf8_step]. by rewrite R. }
  induction 1 as [|a s Ha _ IH|a b s Ha Hb _ IH|a b c s Hab Hc _ IH|a b c d s Hab Hc Hd _ IH]; [done|..]; cbn [utf8_ok utf8_step].
  - unfold lead. by rewrite R.
  - unfold lead. rewrite (F 0 127)%nat by (unfold range in *; lia). rewrite (R 194 223)%nat by done. cbn [utf8_step]. by rewrite R.
  - unfold lead. rewrite (F 0 127)%nat, (F 194 223)%nat by (unfold range in *; lia).
    destruct Hab as [[Ha Hb]|[[Ha Hb]|[[Ha Hb]|[Ha Hb]]]].
    + rewrite (R 224 224)%nat by done. repeat (cbn [utf8_step]; rewrite R by done). done.
    + rewrite (F 224 224)%nat, (R 225 236)%nat by (done || (unfold range in *; lia)). repeat (cbn [utf8_step]; rewrite R by done). done.
    + rewrite (F 224 224)%nat, (F 225 236)%nat, (R 237 237)%nat by (done || (unfold range in *; lia)). repeat (cbn [utf8_step]; rewrite R by done). done.
    + rewrite (F 224 224)%nat, (F 225 236)%nat, (F 237 237)%nat, (R 238 239)%nat by (done || (unfold range in *; lia)). repeat (cbn [utf8_step]; rewrite R by done). done.
  - unfold lead. rewrite (F 0 127)%nat, (F 194 223)%nat, (F 224 224)%nat, (F 225 236)%nat, (F 237 237)%nat, (F 238 239)%nat by (unfold range in *; lia).
    destruct Hab as [[Ha Hb]|[[Ha Hb]|[Ha Hb]]].
    + rewrite (R 240 240)%nat by done. repeat (cbn [utf8_step]; rewrite R by done). done.
    + rewrite (F 240 240)%nat, (R 241 243)%nat by (done || (unfold range in *; lia)). repeat (cbn [utf8_step]; rewrite R by done). done.
    + rewrite (F 240 240)%nat, (F 241 243)%nat, (R 244 244)%nat by (done || (unfold range in *; lia)). repeat (cbn [utf8_step]; rewrite R by done). done.
Qed.
Lemma utf8_ok_from s : utf8_ok [] s = true -> utf8 s.
Proof.
  remember (String.length s) as n eqn:Hn. revert s Hn. induction (lt_wf n) as [n _ IH]. intros s ->.
  destruct s as [|a s]; [constructor|]. cbn [utf8_ok utf8_step]. unfold lead.
  assert (G : forall t, (String.length t < String.length (String a s))%nat -> utf8_ok [] t = true -> utf8 t) by (intros t Ht; by apply (IH _ Ht)).
  clear IH.
  repeat (match goal with |- context [if between ?lo ?hi a then _ else _] => destruct (between lo hi a) eqn:?B end); [..|done].
  all: repeat match goal with E : between _ _ _ = true |- _ => apply between_range in E end.
  - intros H. constructor; [done|]. apply G; [cbn; lia|done].
  - intros H. destruct s as [|b s]; [done|]. cbn [utf8_ok utf8_step] in H. destruct (between 128 191 b) eqn:Eb; [|done]. apply between_range in Eb.
    constructor; [done..|]. apply G; [cbn; lia|done].
  - intros H. destruct s as [|b s]; [done|]. cbn [utf8_ok utf8_step] in H. destruct (between 160 191 b) eqn:Eb; [|done]. apply between_range in Eb.
    destruct s as [|c s]; [done|]. cbn [utf8_ok utf8_step] in H. destruct (between 128 191 c) eqn:Ec; [|done]. apply between_range in Ec.
    apply utf8_3; [tauto|done|]. apply G; [cbn; lia|done].
  - intros H. destruct s as [|b s]; [done|]. cbn [utf8_ok utf8_step] in H. destruct (between 128 191 b) eqn:Eb; [|done]. apply between_range in Eb.
    destruct s as [|c s]; [done|]. cbn [utf8_ok utf8_step] in H. destruct (between 128 191 c) eqn:Ec; [|done]. apply between_range in Ec.
    apply utf8_3; [tauto|done|]. apply G; [cbn; lia|done].
  - intros H. destruct s as [|b s]; [done|]. cbn [utf8_ok utf8_step] in H. destruct (between 128 159 b) eqn:Eb; [|done]. apply between_range in Eb.
    destruct s as [|c s]; [done|]. cbn [utf8_ok utf8_step] in H. destruct (between 128 191 c) eqn:Ec; [|done]. apply between_range in Ec.
    apply utf8_3; [tauto|done|]. apply G; [cbn; lia|done].
  - intros H. destruct s as [|b s]; [done|]. cbn [utf8_ok utf8_step] in H. destruct (between 128 191 b) eqn:Eb; [|done]. apply between_range in Eb.
    destruct s as [|c s]; [done|]. cbn [utf8_ok utf8_step] in H. destruct (between 128 191 c) eqn:Ec; [|done]. apply between_range in Ec.
    apply utf8_3; [tauto|done|]. apply G; [cbn; lia|done].
  - intros H. destruct s as [|b s]; [done|]. cbn [utf8_ok utf8_step] in H. destruct (between 144 191 b) eqn:Eb; [|done]. apply between_range in Eb.
    destruct s as [|c s]; [done|]. cbn [utf8_ok utf8_step] in H. destruct (between 128 191 c) eqn:Ec; [|done]. apply between_range in Ec.
    destruct s as [|d s]; [done|]. cbn [utf8_ok utf8_step] in H. destruct (between 128 191 d) eqn:Ed; [|done]. apply between_range in Ed.
    apply utf8_4; [tauto|done|done|]. apply G; [cbn; lia|done].
  - intros H. destruct s as [|b s]; [done|]. cbn [utf8_ok utf8_step] in H. destruct (between 128 191 b) eqn:Eb; [|done]. apply between_range in Eb.
    destruct s as [|c s]; [done|]. cbn [utf8_ok utf8_step] in H. destruct (between 128 191 c) eqn:Ec; [|done]. apply between_range in Ec.
    destruct s as [|d s]; [done|]. cbn [utf8_ok utf8_step] in H. destruct (between 128 191 d) eqn:Ed; [|done]. apply between_range in Ed.
    apply utf8_4; [tauto|done|done|]. apply G; [cbn; lia|done].
  - intros H. destruct s as [|b s]; [done|]. cbn [utf8_ok utf8_step] in H. destruct (between 128 143 b) eqn:Eb; [|done]. apply between_range in Eb.
    destruct s as [|c s]; [done|]. cbn [utf8_ok utf8_step] in H. destruct (between 128 191 c) eqn:Ec; [|done]. apply between_range in Ec.
    destruct s as [|d s]; [done|]. cbn [utf8_ok utf8_step] in H. destruct (between 128 191 d) eqn:Ed; [|done]. apply between_range in Ed.
    apply utf8_4; [tauto|done|done|]. apply G; [cbn; lia|done].
Qed.
Lemma utf8_ok_iff s : utf8_ok [] s = true <-> utf8 s.
Proof. split; [apply utf8_ok_from|apply utf8_ok_to]. Qed.
