(** Reading times and durations. *)
From Coq Require Import Ascii String.
From stdpp Require Import prelude list.
From Verif.Base Require Import GoInt Str Dec.
From Verif.Times Require Import Texts SpecTexts Calendar.
Local Open Scope string_scope.
Local Open Scope Z_scope.
Local Arguments String.append !_ _ / : simpl nomatch.

Lemma tapp_assoc (a b c : string) : (a ++ b) ++ c = a ++ (b ++ c).
Proof. induction a as [|x a IH]; [done|]. cbn. by rewrite IH. Qed.
Lemma tapp_nil (a : string) : a ++ "" = a.
Proof. induction a as [|x a IH]; [done|]. cbn. by rewrite IH. Qed.
Lemma val_range c : is_digit c = true -> 0 <= digit_val c <= 9.
Proof. unfold is_digit, digit_val. intros [H1%Nat.leb_le H2%Nat.leb_le]%andb_true_iff. lia. Qed.
Lemma ceqb_iff a b : ceqb a b = true <-> a = b.
Proof. unfold ceqb. by rewrite bool_decide_eq_true. Qed.
Lemma ceqb_no a b : ceqb a b = false <-> a <> b.
Proof. unfold ceqb. by rewrite bool_decide_eq_false. Qed.

Lemma digits_of_iff k s n : digits_of k s n <-> digits s = Some n /\ String.length s = k.
Proof. unfold digits_of. split; intros [H1 H2]; (split; [|done]); [by apply numeral_digits|by apply digits_numeral]. Qed.
Lemma one_iff s n : digits_of 1 s n <-> exists a, s = String a "" /\ is_digit a = true /\ n = digit_val a.
Proof.
  rewrite digits_of_iff. split.
  - intros [Hd Hl]. destruct s as [|a [|b s]]; try done. exists a. cbn in Hd. destruct (is_digit a) eqn:Ea; [|done]. by injection Hd as <-.
  - intros (a & -> & Ha & ->). cbn. by rewrite Ha.
Qed.
Lemma two_iff s n : digits_of 2 s n <-> exists a b, s = String a (String b "") /\ is_digit a = true /\ is_digit b = true /\ n = digit_val a * 10 + digit_val b.
Proof.
  rewrite digits_of_iff. split.
  - intros [Hd Hl]. destruct s as [|a [|b [|c s]]]; try done. exists a, b. cbn in Hd. destruct (is_digit a) eqn:Ea; [|done].
    destruct (is_digit b) eqn:Eb; [|done]. by injection Hd as <-.
  - intros (a & b & -> & Ha & Hb & ->). cbn. by rewrite Ha, Hb.
Qed.
Lemma four_iff s n : digits_of 4 s n <-> exists a b c d, s = String a (String b (String c (String d ""))) /\
  is_digit a = true /\ is_digit b = true /\ is_digit c = true /\ is_digit d = true /\
  n = ((digit_val a * 10 + digit_val b) * 10 + digit_val c) * 10 + digit_val d.
Proof.
  rewrite digits_of_iff. split.
  - intros [Hd Hl]. destruct s as [|a [|b [|c [|d [|e s]]]]]; try done. exists a, b, c, d. cbn in Hd. destruct (is_digit a) eqn:Ea; [|done].
    destruct (is_digit b) eqn:Eb; [|done]. destruct (is_digit c) eqn:Ec; [|done]. destruct (is_digit d) eqn:Ed; [|done]. by injection Hd as <-.
  - intros (a & b & c & d & -> & Ha & Hb & Hc & Hd & ->). cbn. by rewrite Ha, Hb, Hc, Hd.
Qed.
Definition no_digit_first (r : string) : Prop := match r with String c _ => is_digit c = false | _ => True end.

Lemma getnum_two s n r : getnum true s = Some (n, r) <-> exists t, digits_of 2 t n /\ s = t ++ r.
Proof.
  split.
  - destruct s as [|a [|b s]]; cbn; [done|by destruct (is_digit a)|]. destruct (is_digit a) eqn:Ea; [|done]. destruct (is_digit b) eqn:Eb; [|done].
    intros H. injection H as <- <-. exists (String a (String b "")). split; [|done]. apply two_iff. by exists a, b.
  - intros (t & (a & b & -> & Ha & Hb & ->)%two_iff & ->). cbn. by rewrite Ha, Hb.
Qed.
Lemma getnum_hour s n r : getnum false s = Some (n, r) -> exists t, some_hour t n /\ s = t ++ r.
Proof.
  destruct s as [|a s]; cbn; [done|]. destruct (is_digit a) eqn:Ea; [|done]. destruct s as [|b s].
  - intros H. injection H as <- <-. exists (String a ""). split; [|done]. left. apply one_iff. by exists a.
  - destruct (is_digit b) eqn:Eb; intros H; injection H as <- <-.
    + exists (String a (String b "")). split; [|done]. right. apply two_iff. by exists a, b.
    + exists (String a ""). split; [|done]. left. apply one_iff. by exists a.
Qed.
Lemma getnum_hour_to t n r : some_hour t n -> no_digit_first r -> getnum false (t ++ r) = Some (n, r).
Proof.
  intros [(a & -> & Ha & ->)%one_iff|(a & b & -> & Ha & Hb & ->)%two_iff] Hr; cbn.
  - rewrite Ha. destruct r as [|c r]; [done|]. cbn in Hr. by rewrite Hr.
  - by rewrite Ha, Hb.
Qed.
Lemma get_year_iff s n r : get_year s = Some (n, r) <-> exists t, digits_of 4 t n /\ s = t ++ r.
Proof.
  split.
  - destruct s as [|a [|b [|c [|d s]]]]; cbn; try done. destruct (is_digit a) eqn:Ea; [|done]. destruct (is_digit b) eqn:Eb; [|done].
    destruct (is_digit c) eqn:Ec; [|done]. destruct (is_digit d) eqn:Ed; [|done]. cbn. intros H. injection H as <- <-.
    exists (String a (String b (String c (String d "")))). split; [|done]. apply four_iff. by exists a, b, c, d.
  - intros (t & (a & b & c & d & -> & Ha & Hb & Hc & Hd & ->)%four_iff & ->). cbn. by rewrite Ha, Hb, Hc, Hd.
Qed.
Lemma skip_byte_iff p s r : skip_byte p s = Some r <-> s = String p r.
Proof.
  destruct s as [|c s]; cbn; [done|]. destruct (ceqb c p) eqn:E.
  - apply ceqb_iff in E as ->. split; intros H; by injection H as ->.
  - apply ceqb_no in E. split; [done|]. intros H. by injection H as -> ->.
Qed.

(** ** The part of a second *)
Lemma nanoseconds_digit l acc c r : is_digit c = true -> nanoseconds (S l) acc (String c r) = nanoseconds l (acc * 10 + digit_val c) r.
Proof. intros H. cbn [nanoseconds]. by rewrite H. Qed.
Lemma nanoseconds_inv left : forall acc s ns r, nanoseconds left acc s = (ns, r) ->
  exists d n, s = d ++ r /\ digits_from acc d = Some n /\ (String.length d <= left)%nat /\ ns = n * 10 ^ (Z.of_nat left - Z.of_nat (String.length d)).
Proof.
  induction left as [|l IH]; intros acc s ns r H.
  - cbn in H. injection H as <- <-. exists "", acc. split; [done|]. split; [done|]. cbn. split; lia.
  - cbn [nanoseconds] in H. destruct s as [|c s].
    { injection H as <- <-. exists "", acc. split; [done|]. split; [done|]. split; [cbn; lia|]. cbn [String.length]. by rewrite Z.sub_0_r. }
    destruct (is_digit c) eqn:Ec.
    + destruct (IH _ _ _ _ H) as (d & n & -> & Hd & Hl & ->). exists (String c d), n. cbn [String.append digits_from String.length]. rewrite Ec.
      split; [done|]. split; [done|]. split; [lia|]. do 2 f_equal. lia.
    + injection H as <- <-. exists "", acc. split; [done|]. split; [done|]. split; [cbn; lia|]. cbn [String.length]. by rewrite Z.sub_0_r.
Qed.
Lemma nanoseconds_to d : forall left acc n r, digits_from acc d = Some n -> (String.length d <= left)%nat -> no_digit_first r ->
  nanoseconds left acc (d ++ r) = (n * 10 ^ (Z.of_nat left - Z.of_nat (String.length d)), r).
Proof.
  induction d as [|c d IH]; intros left acc n r Hd Hl Hr.
  - cbn in Hd. injection Hd as <-. cbn [String.append String.length]. rewrite Z.sub_0_r. destruct left as [|l]; [done|]. cbn [nanoseconds].
    destruct r as [|c r]; [done|]. cbn in Hr. by rewrite Hr.
  - cbn [digits_from] in Hd. destruct (is_digit c) eqn:Ec; [|done]. cbn [String.length] in *. destruct left as [|l]; [lia|].
    cbn [String.append nanoseconds]. rewrite Ec. rewrite (IH l _ n r Hd) by (done || lia). do 3 f_equal. lia.
Qed.
Lemma get_frac_inv s ns r : get_frac s = (ns, r) -> exists f, fraction f ns /\ s = f ++ r.
Proof.
  unfold get_frac. intros H.
  assert (Hno : (0, s) = (ns, r) -> exists f, fraction f ns /\ s = f ++ r).
  { intros E. injection E as <- <-. exists "". split; [constructor|done]. }
  destruct s as [|p [|c s]]; [by apply Hno|by apply Hno|]. destruct (ceqb p ".") eqn:Ep; [|by apply Hno]. destruct (is_digit c) eqn:Ec; [|by apply Hno].
  apply ceqb_iff in Ep as ->. cbn [andb] in H. rewrite nanoseconds_digit in H by done.
  apply nanoseconds_inv in H as (d & n & -> & Hd & Hl & ->).
  exists (String "." (String c d)). split; [|done].
  replace (Z.of_nat 8 - Z.of_nat (String.length d)) with (9 - Z.of_nat (String.length (String c d))) by (cbn [String.length]; lia).
  apply (part (String.length (String c d))); [|cbn; lia]. apply digits_of_iff. split; [|done].
  cbn [digits digits_from]. by rewrite Ec.
Qed.
Definition zone_first (r : string) : Prop := exists c r', r = String c r' /\ (c = "Z" \/ c = "+" \/ c = "-")%char.
Lemma get_frac_to f ns r : fraction f ns -> zone_first r -> get_frac (f ++ r) = (ns, r).
Proof.
  intros Hf (c & r' & -> & Hc). inversion Hf as [|k d n Hd Hk]; subst.
  - cbn [String.append]. unfold get_frac. destruct r' as [|x r']; [done|]. assert (ceqb c "." = false) as -> by by repeat destruct Hc as [->|Hc]; subst. done.
  - apply digits_of_iff in Hd as [Hd Hl]. destruct d as [|x d]; [done|]. cbn [String.append]. unfold get_frac.
    assert (Hx : is_digit x = true) by (cbn in Hd; by destruct (is_digit x)). rewrite Hx. change (ceqb "." ".") with true. cbn [andb].
    change (String x (d ++ String c r')) with (String x d ++ String c r'). rewrite (nanoseconds_to (String x d) 9 0 n).
    + f_equal. subst k. done.
    + exact Hd.
    + lia.
    + cbn. by repeat destruct Hc as [->|Hc]; subst.
Qed.

(** ** The zone *)
Lemma atoi2_iff a b n : atoi2 a b = Some n <-> some_offset (String a (String b "")) n.
Proof.
  unfold some_offset. assert (E : atoi2 a b = parse_int (String a (String b ""))).
  { unfold atoi2, parse_int. destruct (ceqb a "-") eqn:E1; [|destruct (ceqb a "+") eqn:E2].
    - unfold parse_uint. cbn [digits digits_from]. destruct (is_digit b) eqn:Eb; [|done]. pose proof (val_range _ Eb). cbn [mbind option_bind]. rewrite Z.mul_0_l, Z.add_0_l.
      destruct (Z.ltb_spec (digit_val b) (2^64)); [|lia]. cbn [mbind option_bind].
      match goal with |- context [if ?c then _ else _] => destruct c eqn:Ec end; [apply Z.ltb_lt in Ec || apply Z.leb_le in Ec; lia|done].
    - unfold parse_uint. cbn [digits digits_from]. destruct (is_digit b) eqn:Eb; [|done]. pose proof (val_range _ Eb). cbn [mbind option_bind]. rewrite Z.mul_0_l, Z.add_0_l.
      destruct (Z.ltb_spec (digit_val b) (2^64)); [|lia]. cbn [mbind option_bind].
      match goal with |- context [if ?c then _ else _] => destruct c eqn:Ec end; [apply Z.ltb_lt in Ec || apply Z.leb_le in Ec; lia|done].
    - unfold parse_uint. cbn [digits digits_from]. destruct (is_digit a) eqn:Ea; [|done]. destruct (is_digit b) eqn:Eb; [|done].
      pose proof (val_range _ Ea). pose proof (val_range _ Eb). cbn [andb mbind option_bind]. rewrite Z.mul_0_l, Z.add_0_l.
      destruct (Z.ltb_spec (digit_val a * 10 + digit_val b) (2^64)); [|lia]. cbn [mbind option_bind]. destruct (Z.leb_spec (2^63) (digit_val a * 10 + digit_val b)); [lia|done]. }
  rewrite E, parse_int_spec. split; [intros [H _]; done|]. intros [H _]. split; [done|].
  destruct H as [H|[(s & Es & H)|(s & Es & H)]].
  - assert (Hd : digits_of 2 (String a (String b "")) n) by done. apply two_iff in Hd as (x & y & Exy & Hx & Hy & ->).
    pose proof (val_range _ Hx). pose proof (val_range _ Hy). unfold in64. lia.
  - injection Es as -> <-. assert (Hd : digits_of 1 (String b "") n) by done. apply one_iff in Hd as (x & _ & Hx & ->).
    pose proof (val_range _ Hx). unfold in64. lia.
  - injection Es as -> <-. assert (Hd : digits_of 1 (String b "") (- n)) by done. apply one_iff in Hd as (x & _ & Hx & En).
    pose proof (val_range _ Hx). unfold in64. lia.
Qed.
Lemma offset_two s n : some_offset s n -> exists a b, s = String a (String b "").
Proof. intros [_ Hl]. destruct s as [|a [|b [|c s]]]; try done. by exists a, b. Qed.
Lemma get_zone_iff s off r : get_zone s = Some (off, r) <-> exists z, zone some_offset z off /\ s = z ++ r.
Proof.
  split.
  - destruct s as [|sg s]; cbn [get_zone]; [done|]. destruct (ceqb sg "Z") eqn:EZ.
    { apply ceqb_iff in EZ as ->. intros H. injection H as <- <-. exists "Z". split; [constructor|done]. }
    destruct s as [|a [|b [|p [|c [|d s]]]]]; try done. destruct (ceqb p ":") eqn:Ep; [|done]. apply ceqb_iff in Ep as ->.
    destruct (atoi2 a b) as [h|] eqn:Eh; [|done]. destruct (atoi2 c d) as [m|] eqn:Em; [|done]. cbn [mbind option_bind].
    apply atoi2_iff in Eh, Em. destruct (ceqb sg "+") eqn:Es; [|destruct (ceqb sg "-") eqn:Es'; [|done]].
    + apply ceqb_iff in Es as ->. intros H. injection H as <- <-. exists ("+" ++ String a (String b "") ++ ":" ++ String c (String d "")).
      split; [|done]. replace ((h * 60 + m) * 60) with (h * 3600 + m * 60) by ring. by constructor.
    + apply ceqb_iff in Es' as ->. intros H. injection H as <- <-. exists ("-" ++ String a (String b "") ++ ":" ++ String c (String d "")).
      split; [|done]. replace ((h * 60 + m) * 60) with (h * 3600 + m * 60) by ring. by constructor.
  - intros (z & Hz & ->). inversion Hz as [|a b h m Ha Hb|a b h m Ha Hb]; subst; [done| |].
    + destruct (offset_two _ _ Ha) as (a1 & a2 & ->), (offset_two _ _ Hb) as (b1 & b2 & ->). apply atoi2_iff in Ha, Hb.
      cbn -[atoi2]. change (ceqb "+" "Z") with false. change (ceqb ":" ":") with true. change (ceqb "+" "+") with true. rewrite Ha, Hb. cbn -[Z.mul Z.add]. do 2 f_equal. ring.
    + destruct (offset_two _ _ Ha) as (a1 & a2 & ->), (offset_two _ _ Hb) as (b1 & b2 & ->). apply atoi2_iff in Ha, Hb.
      cbn -[atoi2]. change (ceqb "-" "Z") with false. change (ceqb ":" ":") with true. change (ceqb "-" "+") with false. change (ceqb "-" "-") with true.
      rewrite Ha, Hb. cbn -[Z.mul Z.add Z.opp]. do 2 f_equal. ring.
Qed.
Lemma zone_starts P z off r : zone P z off -> zone_first (z ++ r).
Proof. intros [|a b h m _ _|a b h m _ _]; cbn; eexists _, _; (split; [done|]); tauto. Qed.

(** ** The whole *)
Lemma text_iff s t : rfc3339_text s = Some t <-> loose3339 s t.
Proof.
  split.
  - unfold rfc3339_text. intros H.
    destruct (get_year s) as [[y s1]|] eqn:E1; [|done]. cbn [mbind option_bind] in H. apply get_year_iff in E1 as (Y & HY & ->).
    destruct (skip_byte "-" s1) as [s2|] eqn:E2; [|done]. cbn [mbind option_bind] in H. apply skip_byte_iff in E2 as ->.
    destruct (getnum true s2) as [[m s3]|] eqn:E3; [|done]. cbn [mbind option_bind] in H. apply getnum_two in E3 as (M & HM & ->).
    destruct (Z.leb_spec 1 m) as [Hm1|?]; [|done]. destruct (Z.leb_spec m 12) as [Hm2|?]; [|done]. cbn [andb negb] in H.
    destruct (skip_byte "-" s3) as [s4|] eqn:E4; [|done]. cbn [mbind option_bind] in H. apply skip_byte_iff in E4 as ->.
    destruct (getnum true s4) as [[d s5]|] eqn:E5; [|done]. cbn [mbind option_bind] in H. apply getnum_two in E5 as (D & HD & ->).
    destruct (skip_byte "T" s5) as [s6|] eqn:E6; [|done]. cbn [mbind option_bind] in H. apply skip_byte_iff in E6 as ->.
    destruct (getnum false s6) as [[h s7]|] eqn:E7; [|done]. cbn [mbind option_bind] in H. apply getnum_hour in E7 as (Hh & HH & ->).
    destruct (Z.leb_spec 24 h) as [?|Hh24]; [done|].
    destruct (skip_byte ":" s7) as [s8|] eqn:E8; [|done]. cbn [mbind option_bind] in H. apply skip_byte_iff in E8 as ->.
    destruct (getnum true s8) as [[mi s9]|] eqn:E9; [|done]. cbn [mbind option_bind] in H. apply getnum_two in E9 as (Mi & HMi & ->).
    destruct (Z.leb_spec 60 mi) as [?|Hmi]; [done|].
    destruct (skip_byte ":" s9) as [sa|] eqn:Ea; [|done]. cbn [mbind option_bind] in H. apply skip_byte_iff in Ea as ->.
    destruct (getnum true sa) as [[se sb]|] eqn:Eb; [|done]. cbn [mbind option_bind] in H. apply getnum_two in Eb as (Se & HSe & ->).
    destruct (Z.leb_spec 60 se) as [?|Hse]; [done|].
    destruct (get_frac sb) as [ns sc] eqn:Ec. apply get_frac_inv in Ec as (F & HF & ->).
    destruct (get_zone sc) as [[off sd]|] eqn:Ed; [|done]. cbn [mbind option_bind] in H. apply get_zone_iff in Ed as (z & Hz & ->).
    destruct sd; [|done]. destruct (Z.ltb_spec d 1) as [?|Hd1]; [done|]. destruct (Z.ltb_spec (days_in m y) d) as [?|Hd2]; [done|]. cbn [orb] in H.
    injection H as <-. rewrite tapp_nil.
    assert (Hr : real (y, m, d)) by (apply real_iff; lia).
    unfold unix_seconds. rewrite abs_to_unix_shift.
    replace (abs_days y m d * 86400 + (h * 3600 + mi * 60 + se) + shift * 86400 - off) with (day_no (y, m, d) * 86400 + h * 3600 + mi * 60 + se - off) by (cbn [day_no]; ring).
    apply (at_moment some_hour some_offset Y M D Hh Mi Se F z y m d); try done. by apply dated_iff.
  - intros H. inversion H as [Y M D hh mi se f z y mo d ho mn sc ns off n HY HM HD Hh Hmi Hse Hr Hn H24 Hm60 Hs60 Hf Hz]; subst.
    apply dated_iff in Hn; [|done]. subst n. apply real_iff in Hr as [Hm Hd]. unfold rfc3339_text.
    rewrite (proj2 (get_year_iff _ y _) (ex_intro _ Y (conj HY eq_refl))). cbn [mbind option_bind String.append].
    rewrite (proj2 (skip_byte_iff _ _ _) eq_refl). cbn [mbind option_bind].
    rewrite (proj2 (getnum_two _ mo _) (ex_intro _ M (conj HM eq_refl))). cbn [mbind option_bind String.append].
    destruct (Z.leb_spec 1 mo) as [_|?]; [|lia]. destruct (Z.leb_spec mo 12) as [_|?]; [|lia]. cbn [andb negb].
    rewrite (proj2 (skip_byte_iff _ _ _) eq_refl). cbn [mbind option_bind].
    rewrite (proj2 (getnum_two _ d _) (ex_intro _ D (conj HD eq_refl))). cbn [mbind option_bind String.append].
    rewrite (proj2 (skip_byte_iff _ _ _) eq_refl). cbn [mbind option_bind].
    rewrite (getnum_hour_to hh ho) by done. cbn [mbind option_bind String.append].
    destruct (Z.leb_spec 24 ho) as [?|_]; [lia|]. rewrite (proj2 (skip_byte_iff _ _ _) eq_refl). cbn [mbind option_bind].
    rewrite (proj2 (getnum_two _ mn _) (ex_intro _ mi (conj Hmi eq_refl))). cbn [mbind option_bind String.append].
    destruct (Z.leb_spec 60 mn) as [?|_]; [lia|]. rewrite (proj2 (skip_byte_iff _ _ _) eq_refl). cbn [mbind option_bind].
    rewrite (proj2 (getnum_two _ sc _) (ex_intro _ se (conj Hse eq_refl))). cbn [mbind option_bind String.append].
    destruct (Z.leb_spec 60 sc) as [?|_]; [lia|].
    rewrite (get_frac_to f ns z) by (done || (rewrite <-(tapp_nil z); by eapply zone_starts)).
    rewrite (proj2 (get_zone_iff z off "") (ex_intro _ z (conj Hz (eq_sym (tapp_nil z))))). cbn [mbind option_bind].
    destruct (Z.ltb_spec d 1) as [?|_]; [lia|]. destruct (Z.ltb_spec (days_in mo y) d) as [?|_]; [lia|]. cbn [orb].
    do 3 f_equal. unfold unix_seconds. rewrite abs_to_unix_shift. cbn [day_no]. ring.
Qed.
Lemma strict_loose s t : rfc3339 s t -> loose3339 s t.
Proof.
  intros H. inversion H as [Y M D hh mi se f z y mo d ho mn sc ns off n HY HM HD Hh Hmi Hse Hr Hn H24 Hm60 Hs60 Hf Hz]; subst.
  apply (at_moment _ _ Y M D hh mi se f z y mo d ho mn sc ns off n); try done; [by right|]. inversion Hz as [|a b h m [Ha _] [Hb _]|a b h m [Ha _] [Hb _]]; subst; constructor.
  all: unfold some_offset, signed_numeral, digits_of in *; destruct Ha, Hb; split; auto.
Qed.

(** ** Durations *)
Lemma take_digits_to d : forall acc n u, digits_from acc d = Some n -> no_digit_first u -> take_digits acc (d ++ u) = (n, u).
Proof.
  induction d as [|c d IH]; intros acc n u Hd Hu; cbn in Hd.
  - injection Hd as <-. cbn [String.append]. destruct u as [|c u]; [done|]. cbn in Hu |- *. by rewrite Hu.
  - destruct (is_digit c) eqn:Ec; [|done]. cbn. rewrite Ec. by apply IH.
Qed.
Lemma take_digits_inv s : forall acc n u, take_digits acc s = (n, u) -> exists d, s = d ++ u /\ digits_from acc d = Some n /\ (no_digit_first s \/ d <> "").
Proof.
  induction s as [|c s IH]; intros acc n u H; cbn in H.
  - injection H as <- <-. exists "". repeat split. by left.
  - destruct (is_digit c) eqn:Ec.
    + destruct (IH _ _ _ H) as (d & -> & Hd & _). exists (String c d). cbn. rewrite Ec. repeat split; [done|]. by right.
    + injection H as <- <-. exists "". repeat split. by left.
Qed.
Lemma per_unit_iff u k : per_unit u = Some k <-> (u, k * 1000000) ∈ prometheus_units.
Proof.
  unfold per_unit, prometheus_units, second. split.
  - intros H. repeat match type of H with (if String.eqb u ?x then _ else _) = _ => destruct (String.eqb_spec u x) as [->|?]; [injection H as <-; set_solver|] end. done.
  - intros H. repeat (apply elem_of_cons in H as [E|H]; [injection E as -> E; cbn; f_equal; lia|]). by apply elem_of_nil in H.
Qed.
Lemma units_form u unit : (u, unit) ∈ prometheus_units -> no_digit_first u /\ exists k, unit = k * 1000000 /\ 0 < unit.
Proof.
  unfold prometheus_units, second. intros H.
  repeat (apply elem_of_cons in H as [E|H]; [injection E as -> ->; split; [done|]; first
    [by exists 1|by exists 1000|by exists 60000|by exists 3600000|by exists 86400000|by exists 604800000|by exists 31536000000]|]). by apply elem_of_nil in H.
Qed.
Lemma wrap64_mul a k : wrap64 (wrap64 a * k) = wrap64 (a * k).
Proof.
  unfold wrap64. f_equal. replace ((((a + 2 ^ 63) mod 2 ^ 64 - 2 ^ 63) * k + 2 ^ 63)) with (((a + 2 ^ 63) mod 2 ^ 64) * k + (2^63 - 2^63 * k)) by ring.
  rewrite Z.add_mod, Z.mul_mod_idemp_l, <-Z.add_mod by lia. f_equal. ring.
Qed.
Lemma wrap64_iff d z : d = wrap64 z <-> in64 d /\ (2^64 | z - d).
Proof.
  split.
  - intros ->. split; [apply wrap64_range|]. unfold wrap64. exists ((z + 2^63) / 2^64). rewrite Z.mod_eq by lia. ring.
  - intros [Hd [q Hq]]. unfold wrap64, in64 in *. replace (z + 2^63) with (d + 2^63 + q * 2^64) by lia.
    rewrite Z.mod_add by lia. rewrite Z.mod_small by lia. lia.
Qed.
Lemma duration_iff s d : duration_text s = Some d <->
  exists n unit, duration_of s n unit /\ in64 d /\ (2^64 | Z.min n (2^63 - 1) * unit - d).
Proof.
  assert (Ha : forall n, atoi n = Z.min n (2^63 - 1)) by (intros n; unfold atoi; destruct (Z.ltb_spec n (2^63)); lia).
  split.
  - destruct s as [|c s]; cbn [duration_text]; [done|]. destruct (is_digit c) eqn:Ec; [|done].
    destruct (take_digits 0 (String c s)) as [n u] eqn:Et. apply take_digits_inv in Et as (a & Es & Hd & Hne).
    destruct Hne as [Hne|Hne]; [cbn in Hne; congruence|].
    destruct (per_unit u) as [k|] eqn:Eu; [|done]. cbn [mbind option_bind]. intros H. injection H as H. apply per_unit_iff in Eu.
    rewrite wrap64_mul, Ha in H. symmetry in H. apply wrap64_iff in H.
    exists n, (k * 1000000). split.
    + exists a, u. split; [|done]. apply digits_numeral. by destruct a.
    + replace (Z.min n (2 ^ 63 - 1) * (k * 1000000)) with (Z.min n (2 ^ 63 - 1) * 1000000 * k) by ring. done.
  - intros (n & unit & (a & u & Hn & Hu & ->) & Hd). destruct (units_form _ _ Hu) as (Hnd & k & -> & _).
    pose proof (numeral_digits _ _ Hn) as Hdg. destruct a as [|c a]; [done|]. cbn [String.append duration_text].
    assert (Hc : is_digit c = true) by by eapply numeral_head. rewrite Hc. change (String c (a ++ u)) with (String c a ++ u).
    rewrite (take_digits_to (String c a) 0 n u Hdg Hnd). rewrite (proj2 (per_unit_iff u k) Hu). cbn [mbind option_bind].
    f_equal. rewrite wrap64_mul, Ha. symmetry. apply wrap64_iff.
    by replace (Z.min n (2 ^ 63 - 1) * 1000000 * k) with (Z.min n (2 ^ 63 - 1) * (k * 1000000)) by ring.
Qed.
