From Coq Require Import Ascii String.
From stdpp Require Import prelude list.
From Verif.Base Require Import GoInt Str Dec.
From Verif.Setup Require Import Duration SpecDuration.
Local Open Scope string_scope.
Open Scope Z_scope.
Local Arguments String.append !_ _ / : simpl nomatch.

Lemma dapp_assoc (a b c : string) : String.append (String.append a b) c = String.append a (String.append b c).
Proof. induction a as [|x a IH]; simpl; [done|]. by rewrite IH. Qed.
Lemma dapp_nil (a : string) : String.append a EmptyString = a.
Proof. induction a as [|x a IH]; simpl; [done|]. by rewrite IH. Qed.
Lemma dlen_app (a b : string) : String.length (String.append a b) = (String.length a + String.length b)%nat.
Proof. induction a as [|x a IH]; simpl; [done|]. by rewrite IH. Qed.

(** no digit at the front *)
Definition no_digit (s : string) : Prop := match s with String c _ => is_digit c = false | _ => True end.
Lemma digit_range c : is_digit c = true -> 0 <= digit_val c <= 9.
Proof. unfold is_digit, digit_val. intros H. apply andb_prop in H as [A B]. apply Nat.leb_le in A, B. lia. Qed.
Lemma digits_from_le d : forall x k, 0 <= x -> digits_from x d = Some k -> x <= k.
Proof.
  induction d as [|c d IH]; intros x k Hx H; cbn in H; [injection H as <-; lia|].
  destruct (is_digit c) eqn:D; [|done]. pose proof (digit_range _ D). apply IH in H; lia.
Qed.
Lemma leading_int_to d : forall x k s, digits_from x d = Some k -> 0 <= x -> k < 2^63 -> no_digit s ->
  leading_int x (String.append d s) = Some (k, s).
Proof.
  induction d as [|c d IH]; intros x k s H Hx Hk Hs; cbn in H.
  - injection H as <-. destruct s as [|c s']; [done|]. cbn in Hs |- *. by rewrite Hs.
  - destruct (is_digit c) eqn:D; [|done]. pose proof (digit_range _ D) as Hd.
    assert (Hy : x * 10 + digit_val c <= k) by (apply digits_from_le in H; lia).
    simpl. rewrite D. destruct (Z.ltb_spec ((2^63 - 1) / 10) x) as [Hl|Hl].
    + exfalso. pose proof (Z.mul_succ_div_gt (2^63 - 1) 10 ltac:(lia)). lia.
    + destruct (Z.leb_spec (2^63) (x * 10 + digit_val c)); [lia|]. apply IH; [done|lia|done|done].
Qed.
Lemma leading_int_inv : forall s x k r, 0 <= x < 2^63 -> leading_int x s = Some (k, r) ->
  exists d, s = String.append d r /\ digits_from x d = Some k /\ no_digit r /\ k < 2^63.
Proof.
  induction s as [|c s IH]; intros x k r Hx H; cbn in H.
  - injection H as <- <-. exists EmptyString. split_and!; try done. lia.
  - destruct (is_digit c) eqn:D.
    + destruct (_ <? x); [done|]. destruct (Z.leb_spec (2^63) (x * 10 + digit_val c)); [done|]. pose proof (digit_range _ D).
      apply IH in H as (d & -> & Hd & Hr & Hk); [|lia]. exists (String c d). cbn. by rewrite D.
    + injection H as <- <-. exists EmptyString. cbn. rewrite D. split_and!; try done. lia.
Qed.

Definition sep (c : ascii) : bool := is_digit c || ceqb c ".".
Definition at_sep (s : string) : Prop := match s with String c _ => sep c = true | _ => True end.
Lemma leading_unit_to u s : str_any sep u = false -> at_sep s -> leading_unit (String.append u s) = (u, s).
Proof.
  induction u as [|c u IH]; intros H Hs.
  - destruct s as [|c s']; [done|]. simpl. cbn in Hs. unfold sep in Hs. by rewrite Hs.
  - cbn in H. apply orb_false_elim in H as [H1 H2]. simpl. unfold sep in H1. rewrite H1, (IH H2 Hs). done.
Qed.
Lemma leading_unit_inv : forall s u r, leading_unit s = (u, r) -> s = String.append u r /\ str_any sep u = false /\ at_sep r.
Proof.
  induction s as [|c s IH]; intros u r H; cbn in H; [by injection H as <- <-|].
  destruct (is_digit c || ceqb c ".") eqn:E.
  - injection H as <- <-. split_and!; [done|done|]. cbn. exact E.
  - destruct (leading_unit s) as [u' r'] eqn:E'. injection H as <- <-. destruct (IH _ _ eq_refl) as (-> & H1 & H2).
    split_and!; [done| |done]. cbn. unfold sep at 1. rewrite E. exact H1.
Qed.
Lemma unit_of_iff u n : unit_of u = Some n <-> (u, n) ∈ units.
Proof.
  unfold unit_of, units. rewrite !elem_of_cons, elem_of_nil. unfold micro1, micro2.
  destruct (String.eqb_spec u "ns") as [->|?]; [naive_solver|].
  destruct (String.eqb_spec u "us") as [->|?]; [naive_solver|].
  destruct (String.eqb_spec u (String "194" (String "181" "s"))) as [->|?]; [naive_solver|].
  destruct (String.eqb_spec u (String "206" (String "188" "s"))) as [->|?]; [naive_solver|].
  destruct (String.eqb_spec u "ms") as [->|?]; [naive_solver|].
  destruct (String.eqb_spec u "s") as [->|?]; [naive_solver|].
  destruct (String.eqb_spec u "m") as [->|?]; [naive_solver|].
  destruct (String.eqb_spec u "h") as [->|?]; naive_solver.
Qed.
Lemma unit_shape u n : (u, n) ∈ units -> u <> EmptyString /\ str_any sep u = false /\ 0 < n < 2^62.
Proof.
  intros H. assert (F : Forall (fun p : string * Z => p.1 <> EmptyString /\ str_any sep p.1 = false /\ 0 < p.2 < 2^62) units)
    by (repeat constructor; done). rewrite Forall_forall in F. exact (F _ H).
Qed.

Section duration.
Variable portion : Z -> Z -> Z -> Z.
Lemma amounts_digit s n : amounts s n -> exists c s', s = String c s' /\ is_digit c = true.
Proof.
  intros H. destruct H as [d k u n Hd _|d k u n s t Hd _ _]; (destruct d as [|c d']; [by apply numeral_nonempty in Hd|]);
    eexists c, _; (split; [reflexivity|]); by apply numeral_head in Hd.
Qed.
Lemma amounts_nonneg s n : amounts s n -> 0 <= n.
Proof.
  induction 1 as [d k u n Hd Hu|d k u n s t Hd Hu H IH]; apply numeral_nonneg in Hd; apply unit_shape in Hu as (_ & _ & Hn); nia.
Qed.
(** one amount at the front *)
Lemma term_step fuel acc d k u n s : numeral d k -> (u, n) ∈ units -> at_sep s ->
  terms portion (S fuel) acc (String.append (String.append d u) s) =
  if (2^63 - 1) / n <? k then None else if 2^63 <=? acc + k * n then None else terms portion fuel (acc + k * n) s.
Proof.
  intros Hd Hu Hs. pose proof (unit_shape _ _ Hu) as (Hne & Hsep & Hn). pose proof (numeral_nonneg _ _ Hd) as Hk0.
  destruct u as [|cu u']; [done|]. assert (Hcu : is_digit cu = false /\ ceqb cu "." = false).
  { cbn in Hsep. apply orb_false_elim in Hsep as [Hsep _]. by apply orb_false_elim in Hsep. }
  destruct d as [|c d'] eqn:Ed; [by apply numeral_nonempty in Hd|]. assert (Hc : is_digit c = true) by (by apply numeral_head in Hd).
  rewrite <-Ed in *. rewrite dapp_assoc.
  assert (exists r, String.append d (String.append (String cu u') s) = String c r) as [r Er] by (rewrite Ed; simpl; eauto).
  set (rest := String.append (String cu u') s) in *.
  assert (Hdig : digits_from 0 d = Some k) by (apply numeral_digits in Hd; unfold digits in Hd; by rewrite Ed in Hd |- *).
  rewrite Er. cbn [terms]. rewrite Hc. cbn [negb orb]. rewrite <-Er.
  destruct (Z.lt_ge_cases k (2^63)) as [Hk|Hk].
  - rewrite (leading_int_to d 0 k rest Hdig ltac:(lia) Hk) by (cbn; apply Hcu). cbn [mbind option_bind].
    assert (Hl : (String.length rest =? String.length (String.append d rest))%nat = false).
    { apply Nat.eqb_neq. rewrite dlen_app, Ed. cbn. lia. }
    rewrite Hl. cbn [negb andb].
    set (q := match rest with String c1 s1' => _ | EmptyString => _ end).
    assert (Hq : q = (0, 0, rest, false)) by (unfold q, rest; cbn [String.append]; by rewrite (proj2 Hcu)).
    rewrite Hq. clear q Hq. cbn iota beta zeta. unfold rest. rewrite (leading_unit_to (String cu u') s Hsep Hs). rewrite (proj2 (unit_of_iff _ _) Hu). cbn [mbind option_bind].
    destruct (Z.ltb_spec ((2^63 - 1) / n) k) as [|Hkn]; [done|]. change (0 <? 0) with false. cbn iota.
    assert (k * n < 2^63). { pose proof (Z.mul_div_le (2^63 - 1) n ltac:(lia)). nia. }
    destruct (Z.leb_spec (2^63) (k * n)); [lia|]. done.
  - assert (Hov : (2^63 - 1) / n <? k = true).
    { apply Z.ltb_lt. assert ((2^63 - 1) / n <= 2^63 - 1); [|lia]. apply Z.div_le_upper_bound; nia. }
    rewrite Hov. destruct (leading_int 0 (String.append d rest)) as [[v s1]|] eqn:E; [|done]. exfalso.
    apply leading_int_inv in E as (d2 & E & Hd2 & Hs1 & Hv); [|lia].
    assert (Hrest : no_digit rest) by (cbn; apply Hcu). clearbody rest. clear -E Hdig Hd2 Hs1 Hrest Hk Hv.
    revert E Hdig Hd2. generalize 0. revert d2. induction d as [|x d IH]; intros [|y d2] z E Hdig Hd2; simpl in *.
    + injection Hdig as ->. injection Hd2 as ->. lia.
    + subst rest. cbn in Hrest. rewrite Hrest in Hd2. done.
    + subst s1. cbn in Hs1. rewrite Hs1 in Hdig. done.
    + injection E as -> E. destruct (is_digit y); [|done]. eapply IH; eauto.
Qed.
Lemma terms_to s t : amounts s t -> forall fuel d, (String.length s <= fuel)%nat -> 0 <= d -> d + t < 2^63 -> terms portion fuel d s = Some (d + t).
Proof.
  assert (Hdiv : forall k n, 0 < n -> k * n < 2^63 -> (2^63 - 1) / n <? k = false).
  { intros k n Hn H. apply Z.ltb_ge. apply Z.div_le_lower_bound; lia. }
  induction 1 as [d k u n Hd Hu|d k u n s t Hd Hu H IH]; intros fuel a Hf Ha Hlt.
  - pose proof (unit_shape _ _ Hu) as (Hne & _ & Hn). pose proof (numeral_nonneg _ _ Hd).
    destruct fuel as [|fuel]; [exfalso; rewrite dlen_app in Hf; destruct d; [by apply numeral_nonempty in Hd|cbn in Hf; lia]|].
    rewrite <-(dapp_nil (String.append d u)). rewrite (term_step fuel a d k u n EmptyString Hd Hu I), Hdiv by lia.
    destruct (Z.leb_spec (2^63) (a + k * n)); [lia|]. by destruct fuel.
  - pose proof (unit_shape _ _ Hu) as (Hne & _ & Hn). pose proof (numeral_nonneg _ _ Hd). pose proof (amounts_nonneg _ _ H) as Ht.
    assert (Hl : (1 <= String.length d)%nat) by (destruct d; [by apply numeral_nonempty in Hd|cbn; lia]).
    rewrite !dlen_app in Hf. destruct fuel as [|fuel]; [lia|].
    assert (Hs : at_sep s). { apply amounts_digit in H as (c & s' & -> & Hc). cbn. unfold sep. by rewrite Hc. }
    rewrite (term_step fuel a d k u n s Hd Hu Hs), Hdiv by lia. destruct (Z.leb_spec (2^63) (a + k * n)); [lia|].
    rewrite IH by lia. f_equal. lia.
Qed.
Lemma any_app p a b : str_any p (String.append a b) = str_any p a || str_any p b.
Proof. induction a as [|c a IH]; simpl; [done|]. rewrite IH. by rewrite orb_assoc. Qed.
Lemma terms_inv : forall fuel s d n, (String.length s <= fuel)%nat -> 0 <= d -> has_char "." s = false -> s <> EmptyString ->
  terms portion fuel d s = Some n -> exists t, amounts s t /\ n = d + t /\ n < 2^63.
Proof.
  induction fuel as [|fuel IH]; intros s d n Hf Hd Hdot Hne H; [destruct s; [done|cbn in Hf; lia]|].
  destruct s as [|c s0] eqn:Es; [done|]. rewrite <-Es in *. assert (H' := H). rewrite Es in H'. cbn [terms] in H'. rewrite <-Es in H'.
  destruct (is_digit c || ceqb c ".") eqn:Ec; [|done]. cbn [negb] in H'.
  destruct (leading_int 0 s) as [[v s1]|] eqn:El; [|done]. cbn [mbind option_bind] in H'.
  apply leading_int_inv in El as (dd & Edd & Hdig & Hs1 & Hv); [|lia].
  assert (Hdot1 : has_char "." s1 = false) by (unfold has_char in *; rewrite Edd, any_app in Hdot; by apply orb_false_elim in Hdot as [_ Hdot]).
  assert (Hdd : dd <> EmptyString).
  { intros ->. simpl in Edd. rewrite <-Edd, Es in Hs1. cbn in Hs1. rewrite Hs1 in Ec. cbn in Ec. rewrite Es in Hdot. unfold has_char in Hdot. cbn [str_any] in Hdot.
    apply orb_false_elim in Hdot as [Hdot _]. unfold ceqb in Ec, Hdot. apply bool_decide_eq_true_1 in Ec. apply bool_decide_eq_false_1 in Hdot. congruence. }
  assert (Hnum : numeral dd v) by (apply digits_numeral; unfold digits; by destruct dd).
  set (q := match s1 with String c1 s1' => _ | EmptyString => _ end) in H'.
  assert (Hq : q = (0, 0, s1, false)).
  { unfold q. destruct s1 as [|c1 s1']; [done|]. unfold has_char in Hdot1. cbn [str_any] in Hdot1. apply orb_false_elim in Hdot1 as [Hd1 _].
    assert (ceqb c1 "." = false) as ->; [|done]. unfold ceqb in *. apply bool_decide_eq_false_1 in Hd1. apply bool_decide_eq_false_2. congruence. }
  rewrite Hq in H'. cbn iota beta zeta in H'. destruct (_ && _); [done|]. destruct (leading_unit s1) as [u s3] eqn:Eu.
  apply leading_unit_inv in Eu as (Es1 & Hu & Hs3). destruct u as [|cu u']; [done|]. set (u := String cu u') in *.
  destruct (unit_of u) as [un|] eqn:Eun; [|done]. apply unit_of_iff in Eun.
  rewrite Edd, Es1, <-dapp_assoc in H. rewrite (term_step fuel d dd v u un s3 Hnum Eun Hs3) in H.
  destruct (_ <? v); [done|]. destruct (Z.leb_spec (2^63) (d + v * un)); [done|].
  pose proof (unit_shape _ _ Eun) as (_ & _ & Hun). pose proof (numeral_nonneg _ _ Hnum) as Hv0.
  destruct s3 as [|c3 s3'] eqn:E3.
  - assert (n = d + v * un) as -> by (destruct fuel; by injection H as <-). exists (v * un). split; [|lia].
    rewrite Edd, Es1, dapp_nil. by constructor.
  - rewrite <-E3 in *. assert (Hlen : (String.length s3 <= fuel)%nat).
    { rewrite Edd, Es1, !dlen_app in Hf. destruct dd; [done|]. cbn in Hf. lia. }
    apply IH in H as (t & Ht & -> & Hlt); [|done|nia| |by rewrite E3].
    + exists (v * un + t). split; [|lia]. rewrite Edd, Es1, <-dapp_assoc. by constructor.
    + unfold has_char in *. rewrite Es1, any_app in Hdot1. by apply orb_false_elim in Hdot1 as [_ ?].
Qed.

Lemma zero_alone n : ~ amounts "0" n.
Proof.
  intros H. inversion H as [d v u m Hd Hu E|d v u m s' t Hd Hu Hs E].
  all: exfalso; apply (f_equal String.length) in E; rewrite ?dlen_app in E; cbn in E; destruct (unit_shape _ _ Hu) as [Hne _];
    (destruct d; [by apply numeral_nonempty in Hd|]); (destruct u; [done|]); cbn in E; lia.
Qed.
Definition body (neg : bool) (s1 : string) : option Z :=
  if String.eqb s1 "0" then Some 0
  else match s1 with EmptyString => None | _ => d ← terms portion (String.length s1) 0 s1; Some (if neg then - d else d) end.
Lemma body_iff neg s1 n : has_char "." s1 = false ->
  body neg s1 = Some n <-> (s1 = "0" /\ n = 0) \/ exists d, amounts s1 d /\ d < 2^63 /\ n = if neg then - d else d.
Proof.
  intros Hdot. unfold body. destruct (String.eqb_spec s1 "0") as [->|Hz].
  { split; [intros [= <-]; by left|]. intros [[_ ->]|(d & H & _)]; [done|]. by apply zero_alone in H. }
  destruct s1 as [|c s'] eqn:E1.
  { split; [done|]. intros [[? _]|(d & H & _)]; [done|]. apply amounts_digit in H as (? & ? & ? & _). done. }
  rewrite <-E1 in *. split.
  - destruct (terms portion (String.length s1) 0 s1) as [d'|] eqn:Et; [|done]. intros [= <-].
    apply terms_inv in Et as (t & Ht & -> & Hlt); [|lia|lia|done|by rewrite E1]. right. exists t. split_and!; [done|lia|by rewrite Z.add_0_l].
  - intros [[? _]|(d & H & Hlt & ->)]; [done|]. rewrite (terms_to _ _ H _ 0) by lia. cbn. by rewrite Z.add_0_l.
Qed.
Lemma amounts_sign c s n : amounts (String c s) n -> c <> "-"%char /\ c <> "+"%char.
Proof. intros H. apply amounts_digit in H as (c' & s' & [= -> ->] & Hc). split; intros ->; done. Qed.
Lemma duration_iff s n : has_char "." s = false -> parse_duration portion s = Some n <-> spells s n /\ - 2^63 < n < 2^63.
Proof.
  intros Hdot.
  assert (Hdot' : forall c s', s = String c s' -> has_char "." s' = false).
  { intros c s' ->. unfold has_char in *. cbn [str_any] in Hdot. by apply orb_false_elim in Hdot as [_ ?]. }
  assert (Ep : parse_duration portion s = match s with
    | String c s' => if ceqb c "-" then body true s' else if ceqb c "+" then body false s' else body false s
    | EmptyString => body false s end).
  { unfold parse_duration, body. destruct s as [|c s']; [done|]. destruct (ceqb c "-"); [done|]. by destruct (ceqb c "+"). }
  rewrite Ep. clear Ep.
  assert (Hplain : (forall c s', s = String c s' -> c <> "-"%char /\ c <> "+"%char) -> body false s = Some n <-> spells s n /\ - 2^63 < n < 2^63).
  { intros Hc. rewrite body_iff by done. split.
    - intros [[-> ->]|(d & H & Hlt & ->)]; [split; [apply sp_zero; by left|lia]|]. split; [by constructor|]. apply amounts_nonneg in H. lia.
    - intros [H Hn]. inversion H as [s1 n1 Ha|s1 n1 Ha|s1 n1 Ha|s1 [-> |[-> | ->]]]; subst.
      + right. exists n. split_and!; [done|lia|done].
      + destruct (Hc _ _ eq_refl). done.
      + destruct (Hc _ _ eq_refl). done.
      + by left.
      + destruct (Hc _ _ eq_refl). done.
      + destruct (Hc _ _ eq_refl). done. }
  destruct s as [|c s'] eqn:Es; [apply Hplain; done|].
  destruct (decide (c = "-"%char)) as [->|Hm]; [|destruct (decide (c = "+"%char)) as [->|Hp]].
  - change (ceqb "-" "-") with true. cbn iota. rewrite body_iff by (by eapply Hdot'). split.
    + intros [[-> ->]|(d & H & Hlt & ->)]; [split; [apply sp_zero; auto|lia]|]. split; [by constructor|]. apply amounts_nonneg in H. lia.
    + intros [H Hn]. inversion H as [s1 n1 Ha|s1 n1 Ha|s1 n1 Ha|s1 [E|[E|E]]]; subst.
      * by apply amounts_sign in Ha as [? _].
      * right. eexists. split_and!; [done|lia|done].
      * done.
      * done.
      * injection E as ->. by left.
  - change (ceqb "+" "-") with false. change (ceqb "+" "+") with true. cbn iota. rewrite body_iff by (by eapply Hdot'). split.
    + intros [[-> ->]|(d & H & Hlt & ->)]; [split; [apply sp_zero; auto|lia]|]. split; [by constructor|]. apply amounts_nonneg in H. lia.
    + intros [H Hn]. inversion H as [s1 n1 Ha|s1 n1 Ha|s1 n1 Ha|s1 [E|[E|E]]]; subst.
      * by apply amounts_sign in Ha as [_ ?].
      * right. eexists. split_and!; [done|lia|done].
      * done.
      * injection E as ->. by left.
      * done.
  - assert (ceqb c "-" = false) as -> by (by apply bool_decide_eq_false_2). assert (ceqb c "+" = false) as -> by (by apply bool_decide_eq_false_2).
    apply Hplain. intros c0 s0 [= <- <-]. done.
Qed.
End duration.
