From Coq Require Import Ascii String.
From stdpp Require Import prelude list.
From Verif.Base Require Import GoInt Str Dec.
From Verif.Setup Require Import Duration SpecDuration DurationProofs SpecFraction.
Local Open Scope string_scope.
Open Scope Z_scope.
Local Arguments String.append !_ _ / : simpl nomatch.

Lemma fraction_to f : forall x y k s, digits_from x f = Some y -> 0 <= x < 10 ^ k -> 0 <= k ->
  k + Z.of_nat (String.length f) <= 18 -> no_digit s ->
  leading_fraction x k false (String.append f s) = (y, k + Z.of_nat (String.length f), s) /\ 0 <= y.
Proof.
  induction f as [|c f IH]; intros x y k s H Hx Hk Hl Hs.
  - cbn in H. injection H as <-. cbn. rewrite Z.add_0_r. split; [|lia].
    destruct s as [|c s]; [done|]. cbn in Hs |- *. by rewrite Hs.
  - cbn in H, Hl. destruct (is_digit c) eqn:D; [|done]. pose proof (digit_range _ D).
    cbn [String.append leading_fraction]. rewrite D.
    assert (10 ^ k <= 10 ^ 17) by (apply Z.pow_le_mono_r; lia).
    assert (Hk1 : 10 ^ (k + 1) = 10 * 10 ^ k) by (rewrite Z.pow_add_r by lia; lia).
    destruct (Z.ltb_spec ((2^63 - 1) / 10) x) as [Hq|_]; [exfalso; revert Hq; change ((2^63 - 1) / 10) with 922337203685477580; lia|].
    cbn [orb]. destruct (Z.leb_spec (2^63) (x * 10 + digit_val c)); [lia|].
    edestruct (IH (x * 10 + digit_val c) y (k + 1) s) as [E Hy]; [exact H|lia|lia|lia|done|].
    rewrite E. split; [|done]. cbn [String.length]. f_equal. f_equal. lia.
Qed.

Section fraction.
Variable portion : Z -> Z -> Z -> Z.
Hypothesis portion_nonneg : forall x k n, 0 <= x -> 0 < n -> 0 <= portion x k n.
Lemma amount_shape s n : amount portion s n -> 0 <= n /\ exists c s', s = String c s' /\ sep c = true.
Proof.
  intros H. destruct H as [d k u n Hd Hu|d k f x u n Hd Hf Hl Hu|d k u n Hd Hu]; pose proof (unit_shape _ _ Hu) as (_ & _ & Hn).
  - pose proof (numeral_nonneg _ _ Hd). split; [nia|]. destruct d as [|c d]; [by apply numeral_nonempty in Hd|].
    eexists _, _. split; [reflexivity|]. apply numeral_head in Hd. unfold sep. by rewrite Hd.
  - pose proof (numeral_nonneg _ _ Hf).
    assert (0 <= k) by (destruct Hd as [[_ ->]|Hd]; [lia|by apply numeral_nonneg in Hd]).
    split. { destruct (decide (x = 0)); [nia|]. pose proof (portion_nonneg x (Z.of_nat (String.length f)) n ltac:(lia) ltac:(lia)). nia. }
    destruct Hd as [[-> _]|Hd]; [by eexists _, _|]. destruct d as [|c d]; [by apply numeral_nonempty in Hd|].
    eexists _, _. split; [reflexivity|]. apply numeral_head in Hd. unfold sep. by rewrite Hd.
  - pose proof (numeral_nonneg _ _ Hd). split; [nia|]. destruct d as [|c d]; [by apply numeral_nonempty in Hd|].
    eexists _, _. split; [reflexivity|]. apply numeral_head in Hd. unfold sep. by rewrite Hd.
Qed.
Lemma point_step fuel acc d k f x u n s :
  (d = "" /\ k = 0 /\ f <> "") \/ numeral d k -> (f = "" /\ x = 0) \/ numeral f x -> (String.length f <= 18)%nat -> (u, n) ∈ units -> at_sep s ->
  0 <= k -> k * n < 2^63 ->
  let v := k * n + if decide (x = 0) then 0 else portion x (Z.of_nat (String.length f)) n in
  terms portion (S fuel) acc (String.append (String.append d (String.append "." (String.append f u))) s) =
  if 2^63 <=? v then None else if 2^63 <=? acc + v then None else terms portion fuel (acc + v) s.
Proof.
  intros Hd Hf Hl Hu Hs Hk0 Hkn v. pose proof (unit_shape _ _ Hu) as (Hne & Hsep & Hn).
  destruct u as [|cu u']; [done|]. assert (Hcu : is_digit cu = false).
  { cbn in Hsep. apply orb_false_elim in Hsep as [Hsep _]. by apply orb_false_elim in Hsep as [? _]. }
  rewrite dapp_assoc. change (String.append (String.append "." (String.append f (String cu u'))) s)
    with (String "." (String.append (String.append f (String cu u')) s)). rewrite dapp_assoc.
  set (rest := String.append (String cu u') s). set (fr := String.append f rest).
  assert (Hdig : digits_from 0 d = Some k).
  { destruct Hd as [(-> & -> & _)|Hd]; [done|]. apply numeral_digits in Hd as E. unfold digits in E. destruct d; [done|exact E]. }
  assert (Hfdig : digits_from 0 f = Some x).
  { destruct Hf as [(-> & ->)|Hf]; [done|]. apply numeral_digits in Hf as E. unfold digits in E. destruct f; [done|exact E]. }
  assert (exists c r, String.append d (String "." fr) = String c r /\ is_digit c || ceqb c "." = true) as (c & r & Er & Hc).
  { destruct d as [|c d']; [by eexists _, _|]. eexists _, _. split; [reflexivity|]. destruct Hd as [[? _]|Hd]; [done|].
    apply numeral_head in Hd. by rewrite Hd. }
  rewrite Er. cbn [terms]. rewrite Hc. cbn [negb]. rewrite <-Er.
  assert (Hk : k < 2^63) by nia.
  rewrite (leading_int_to d 0 k (String "." fr) Hdig ltac:(lia) Hk) by done. cbn [mbind option_bind].
  change (ceqb "." ".") with true. cbn iota.
  destruct (fraction_to f 0 x 0 rest Hfdig ltac:(lia) ltac:(lia) ltac:(lia) Hcu) as [Ef Hx]. fold fr in Ef. rewrite Ef. clear Ef.
  cbn iota beta. rewrite Z.add_0_l.
  assert (Hpp : negb (negb (String.length (String "." fr) =? String.length (String.append d (String "." fr)))%nat) &&
                negb (negb (String.length rest =? String.length fr)%nat) = false).
  { rewrite !negb_involutive. apply andb_false_iff. destruct Hd as [(-> & _ & Hfne)|Hd].
    - right. apply Nat.eqb_neq. unfold fr. rewrite dlen_app. destruct f; [done|cbn; lia].
    - left. apply Nat.eqb_neq. rewrite dlen_app. destruct d; [by apply numeral_nonempty in Hd|cbn; lia]. }
  rewrite Hpp. unfold rest. rewrite (leading_unit_to (String cu u') s Hsep Hs). rewrite (proj2 (unit_of_iff _ _) Hu). cbn [mbind option_bind].
  destruct (Z.ltb_spec ((2^63 - 1) / n) k) as [Hov|_].
  { exfalso. assert (k <= (2^63 - 1) / n); [|lia]. apply Z.div_le_lower_bound; lia. }
  assert (Ev : (if 0 <? x then k * n + portion x (Z.of_nat (String.length f)) n else k * n) = v).
  { unfold v. destruct (decide (x = 0)) as [->|]; [change (0 <? 0) with false; cbn iota; lia|]. destruct (Z.ltb_spec 0 x); lia. }
  rewrite Ev. done.
Qed.
Lemma amount_step fuel acc a n s : amount portion a n -> at_sep s -> 0 <= acc -> acc + n < 2^63 ->
  terms portion (S fuel) acc (String.append a s) = terms portion fuel (acc + n) s.
Proof.
  intros H Hs Ha Hlt. destruct H as [d k u n Hd Hu|d k f x u n Hd Hf Hl Hu|d k u n Hd Hu]; pose proof (unit_shape _ _ Hu) as (_ & _ & Hn).
  - rewrite (term_step portion fuel acc d k u n s Hd Hu Hs). pose proof (numeral_nonneg _ _ Hd).
    destruct (Z.ltb_spec ((2^63 - 1) / n) k) as [Hov|_].
    { exfalso. assert (k <= (2^63 - 1) / n); [|lia]. apply Z.div_le_lower_bound; nia. }
    destruct (Z.leb_spec (2^63) (acc + k * n)); [lia|done].
  - assert (0 <= k) by (destruct Hd as [[_ ->]|Hd]; [lia|by apply numeral_nonneg in Hd]). pose proof (numeral_nonneg _ _ Hf) as Hx0.
    assert (Hp : 0 <= if decide (x = 0) then 0 else portion x (Z.of_nat (String.length f)) n)
      by (destruct (decide (x = 0)); [lia|apply portion_nonneg; lia]).
    rewrite (point_step fuel acc d k f x u n s); [| |by right|done|done|done|done|lia].
    + cbn zeta. set (p := if decide (x = 0) then _ else _) in *.
      destruct (Z.leb_spec (2^63) (k * n + p)); [lia|]. destruct (Z.leb_spec (2^63) (acc + (k * n + p))); [lia|done].
    + destruct Hd as [[-> ->]|Hd]; [left|by right]. split_and!; try done. intros ->. by apply numeral_nonempty in Hf.
  - pose proof (numeral_nonneg _ _ Hd). 
    pose proof (point_step fuel acc d k "" 0 u n s (or_intror Hd) (or_introl (conj eq_refl eq_refl)) ltac:(cbn; lia) Hu Hs ltac:(lia) ltac:(lia)) as E.
    cbn zeta in E. rewrite decide_True in E by done. rewrite Z.add_0_r in E. cbn [String.append] in E |- *. rewrite E.
    destruct (Z.leb_spec (2^63) (k * n)); [lia|]. destruct (Z.leb_spec (2^63) (acc + k * n)); [lia|done].
Qed.
Lemma mixed_shape s n : mixed portion s n -> 0 <= n /\ exists c s', s = String c s' /\ sep c = true.
Proof.
  destruct 1 as [s n H|s n s' n' H H'].
  - by apply amount_shape.
  - assert (0 <= n') by (induction H' as [? ? X|? ? ? ? X ? IH]; apply amount_shape in X as [? _]; [done|lia]).
    apply amount_shape in H as (? & c & t & -> & ?). split; [lia|]. by eexists _, _.
Qed.
Lemma mixed_terms s n : mixed portion s n -> forall fuel acc, (String.length s <= fuel)%nat -> 0 <= acc -> acc + n < 2^63 ->
  terms portion fuel acc s = Some (acc + n).
Proof.
  induction 1 as [s n H|s n s' n' H H' IH]; intros fuel acc Hf Ha Hlt; pose proof (amount_shape _ _ H) as (Hn & c & t & Es & _).
  - destruct fuel as [|fuel]; [rewrite Es in Hf; cbn in Hf; lia|].
    rewrite <-(dapp_nil s). rewrite (amount_step fuel acc s n "" H I Ha Hlt). by destruct fuel.
  - pose proof (mixed_shape _ _ H') as (Hn' & c' & t' & Es' & Hc').
    rewrite dlen_app in Hf. destruct fuel as [|fuel]; [rewrite Es in Hf; cbn in Hf; lia|].
    rewrite (amount_step fuel acc s n s' H ltac:(by rewrite Es') Ha ltac:(lia)).
    rewrite IH; [f_equal; lia| |lia|lia]. rewrite Es in Hf. cbn in Hf. lia.
Qed.
Lemma mixed_parse s n : mixed portion s n -> n < 2^63 ->
  parse_duration portion s = Some n /\ parse_duration portion (String "+" s) = Some n /\ parse_duration portion (String "-" s) = Some (- n).
Proof.
  intros H Hlt. pose proof (mixed_shape _ _ H) as (Hn & c & t & Es & Hc).
  pose proof (mixed_terms _ _ H (String.length s) 0 (le_n _) (Z.le_refl 0) ltac:(lia)) as Et. rewrite Z.add_0_l in Et.
  assert (Hz : String.eqb s "0" = false).
  { apply String.eqb_neq. intros ->. vm_compute in Et. done. }
  assert (Hm : ceqb c "-" = false) by (apply bool_decide_eq_false_2; by intros ->).
  assert (Hp : ceqb c "+" = false) by (apply bool_decide_eq_false_2; by intros ->).
  unfold parse_duration. split_and!.
  - rewrite Es, Hm, Hp. cbn iota. rewrite <-Es, Hz, Et. done.
  - change (ceqb "+" "-") with false. change (ceqb "+" "+") with true. cbn iota. rewrite Hz, Et. by rewrite Es.
  - change (ceqb "-" "-") with true. cbn iota. rewrite Hz, Et. by rewrite Es.
Qed.
End fraction.
