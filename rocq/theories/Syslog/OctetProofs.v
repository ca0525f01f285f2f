(** Proofs about the octet counting reader. *)
From Coq Require Import Ascii String.
From stdpp Require Import prelude list.
From Verif.Base Require Import Envelope Str Dec.
From Verif.Syslog Require Import Model Octet SpecOctet.
Open Scope Z_scope.
Local Arguments String.append !_ _ / : simpl nomatch.

Lemma sapp_assoc (a b c : string) : append (append a b) c = append a (append b c).
Proof. induction a as [|x a IH]; simpl; [done|]. by rewrite IH. Qed.
Lemma sapp_nil (a : string) : append a EmptyString = a.
Proof. induction a as [|x a IH]; simpl; [done|]. by rewrite IH. Qed.
Lemma slen_app (a b : string) : String.length (append a b) = (String.length a + String.length b)%nat.
Proof. induction a as [|x a IH]; simpl; [done|]. by rewrite IH. Qed.
Lemma substring_app m s : String.substring 0 (String.length m) (append m s) = m.
Proof. induction m as [|x m IH]; simpl; [by destruct s|]. by rewrite IH. Qed.
Lemma skip_app m s : skip (String.length m) (append m s) = s.
Proof. by induction m. Qed.
Lemma substring_skip n : forall s, (n <= String.length s)%nat -> s = append (String.substring 0 n s) (skip n s) /\ String.length (String.substring 0 n s) = n.
Proof.
  induction n as [|n IH]; intros [|c s] H; simpl in *; [done..|lia|].
  destruct (IH s) as [E L]; [lia|]. split; [by rewrite <-E|by rewrite L].
Qed.

Lemma digit_not_nul c : is_digit c = true -> nul c = false.
Proof. unfold is_digit, nul. destruct (Nat.leb_spec 48 (nat_of_ascii c)); [|done]. intros _. apply Nat.eqb_neq. lia. Qed.
Lemma digit_not_space c : is_digit c = true -> ceqb c " " = false.
Proof. destruct c as [[] [] [] [] [] [] [] []]; by vm_compute. Qed.

(** what ends the digits of a length: a byte that is neither a digit nor zero (and stays), a zero byte, or the end *)
Lemma scan_len_stop closed d : forall acc n s, digits_from acc d = Some n ->
  match s with
  | EmptyString => scan_len closed acc (append d s) = if closed then Some (n, EmptyString) else None
  | String c s' => (nul c = true -> scan_len closed acc (append d s) = Some (n, s')) /\
      (nul c = false -> is_digit c = false -> scan_len closed acc (append d s) = Some (n, s))
  end.
Proof.
  induction d as [|c d IH]; intros acc n s H; cbn in H.
  - injection H as ->. destruct s as [|c s']; cbn; [done|]. split; [by intros ->|]. by intros -> ->.
  - destruct (is_digit c) eqn:D; [|done]. specialize (IH _ _ s H). cbn. rewrite (digit_not_nul _ D), D. done.
Qed.
Lemma scan_len_inv closed : forall s acc n r, scan_len closed acc s = Some (n, r) -> exists d, digits_from acc d = Some n /\
  (s = append d r /\ (r = EmptyString \/ exists c r', r = String c r' /\ nul c = false /\ is_digit c = false) \/ s = append d (String "000" r)).
Proof.
  induction s as [|c s IH]; intros acc n r H; cbn in H.
  - destruct closed; [|done]. injection H as <- <-. exists EmptyString. split; [done|]. left. split; [done|]. by left.
  - destruct (nul c) eqn:N.
    { injection H as <- <-. exists EmptyString. split; [done|]. right. cbn. f_equal. revert N. destruct c as [[] [] [] [] [] [] [] []]; by vm_compute. }
    destruct (is_digit c) eqn:D.
    + apply IH in H as (d & Hd & H). exists (String c d). cbn. rewrite D. split; [done|].
      destruct H as [[-> H]| ->]; [left|right]; done.
    + injection H as <- <-. exists EmptyString. split; [done|]. left. split; [done|]. right. eauto.
Qed.

Lemma counts_head d m : counts d m -> exists c d', d = String c d' /\ is_digit c = true /\ ceqb c "0" = false /\
  digits_from 0 d = Some (Z.of_nat (String.length m)).
Proof.
  intros [Hn Hz]. destruct d as [|c d']; [by apply numeral_nonempty in Hn|]. exists c, d'. split; [done|].
  split; [by eapply numeral_head|]. split; [|by apply numeral_digits in Hn].
  unfold ceqb. apply bool_decide_eq_false_2. intros ->. by apply Hz.
Qed.
Lemma digits_from_pos d : forall acc n, 0 < acc -> digits_from acc d = Some n -> 0 < n.
Proof.
  induction d as [|c d IH]; intros acc n H E; cbn in E; [by injection E as <-|]. destruct (is_digit c) eqn:D; [|done].
  eapply IH; [|done]. unfold digit_val. unfold is_digit in D. destruct (Nat.leb_spec 48 (nat_of_ascii c)); [|done]. lia.
Qed.
Lemma head_pos c d n : is_digit c = true -> ceqb c "0" = false -> digits_from 0 (String c d) = Some n -> 0 < n.
Proof.
  intros D Hz E. cbn in E. rewrite D in E. eapply digits_from_pos; [|done].
  revert D Hz. destruct c as [[] [] [] [] [] [] [] []]; vm_compute; try discriminate; done.
Qed.
Lemma counts_pos d m : counts d m -> (1 <= String.length m)%nat.
Proof. intros H. apply counts_head in H as (c & d' & -> & D & Hz & E). apply head_pos in E; [lia|done..]. Qed.
Lemma to_int_small n : 0 <= n < 2^63 -> to_int n = n.
Proof. intros H. unfold to_int. cbn zeta. rewrite Z.min_l by lia. destruct (Z.ltb_spec n (2^63)); lia. Qed.
Lemma to_int_inv n : 0 <= n -> 0 <= to_int n -> to_int n = n.
Proof. intros H. unfold to_int. cbn zeta. destruct (Z.ltb_spec (Z.min n (2^64 - 1)) (2^63)); lia. Qed.

Section octet.
Context {M : Type}.
Variable size : nat.
Variable rfc5424 : string -> option M.
Variable Hsize : Z.of_nat size < 2^63.

Definition after (closed : bool) (fuel : nat) (m : string) (rest : string) : list (option M) * bool :=
  match rfc5424 m with
  | None => ([None], true)
  | Some msg =>
      match scan size closed (mk_scan rest 0 false) with
      | Some (TEnd, _) => ([Some msg], true)
      | next => let '(rs, e) := loop size rfc5424 closed fuel next in (Some msg :: rs, e)
      end
  end.

(** the three steps over a frame *)
Lemma scan_frame closed m f rest : loose_frame m f -> (String.length m <= size)%nat ->
  exists n st, scan size closed (mk_scan (append f rest) 0 false) = Some (TLen n, st) /\
  exists st', scan size closed st = Some (TSpace, st') /\ scan size closed st' = Some (TMsg m, mk_scan rest 0 false).
Proof.
  intros (d & Hc & Hf) Hm. pose proof (counts_pos _ _ Hc) as Hpos. apply counts_head in Hc as (c & d' & Ed & D & Hz & E).
  set (tail := append " " (append m rest)).
  assert (H : scan_len closed 0 (append f rest) = Some (Z.of_nat (String.length m), tail)).
  { destruct Hf as [-> | ->]; rewrite sapp_assoc.
    - pose proof (scan_len_stop closed d 0 _ tail E) as H. cbn in H. by apply H.
    - pose proof (scan_len_stop closed d 0 _ (String "000" tail) E) as H. cbn in H. by apply H. }
  exists (Z.of_nat (String.length m)), (mk_scan tail (Z.of_nat (String.length m)) false). split.
  { unfold scan. cbn [sc_rest sc_ready]. rewrite H.
    assert (exists s', append f rest = String c s') as [s' ->] by (destruct Hf as [-> | ->]; rewrite Ed; cbn; eauto).
    by rewrite D, Hz. }
  exists (mk_scan (append m rest) (Z.of_nat (String.length m)) true). split; [done|].
  unfold scan. cbn [sc_rest sc_ready]. destruct (append m rest) as [|c' s'] eqn:Es.
  { exfalso. destruct m; [cbn in Hpos; lia|done]. }
  rewrite <-Es. unfold scan_msg. cbn [sc_rest sc_len]. rewrite to_int_small by lia. rewrite slen_app.
  destruct (Z.ltb_spec (Z.of_nat (String.length m)) 0); [lia|].
  destruct (Z.ltb_spec (Z.of_nat (String.length m + String.length rest)) (Z.min (Z.of_nat (String.length m)) (Z.of_nat size))); [lia|].
  destruct (Z.ltb_spec (Z.of_nat size) (Z.of_nat (String.length m))); [lia|].
  by rewrite Nat2Z.id, substring_app, skip_app.
Qed.
Lemma loop_frame closed fuel m f rest : loose_frame m f -> (String.length m <= size)%nat ->
  loop size rfc5424 closed (S fuel) (scan size closed (mk_scan (append f rest) 0 false)) = after closed fuel m rest.
Proof.
  intros Hf Hm. destruct (scan_frame closed m f rest Hf Hm) as (n & st & E1 & st' & E2 & E3).
  cbn [loop]. rewrite E1, E2, E3. unfold after. by destruct (rfc5424 m).
Qed.

(** a first token either begins a frame, or is waited for, or is an error *)
Lemma round closed s :
  (exists m f rest, loose_frame m f /\ (String.length m <= size)%nat /\ s = append f rest) \/
  (closed = false /\ forall fuel, loop size rfc5424 closed (S fuel) (scan size closed (mk_scan s 0 false)) = ([], false)) \/
  (forall fuel, loop size rfc5424 closed (S fuel) (scan size closed (mk_scan s 0 false)) = ([None], true)).
Proof.
  destruct (scan size closed (mk_scan s 0 false)) as [[t st]|] eqn:E.
  2:{ right; left. split; [|done]. revert E. unfold scan. cbn [sc_rest sc_ready]. destruct s as [|c r].
      - by destruct closed.
      - destruct (is_digit c && negb (ceqb c "0")).
        + destruct (scan_len closed 0 (String c r)) as [[??]|] eqn:El; [done|]. intros _. destruct closed; [|done]. exfalso.
          clear -El. revert El. generalize 0. generalize (String c r). intros s. induction s as [|c' s IH]; intros z; cbn; [done|].
          destruct (nul c'); [done|]. destruct (is_digit c'); [apply IH|done].
        + destruct (nul c); [done|]. by destruct (ceqb c " "). }
  destruct t as [n| | | |]; [|by right; right..].
  destruct (scan size closed st) as [[t2 st2]|] eqn:E2.
  2:{ right; left. split; [|intros fuel; cbn [loop]; by rewrite E2]. destruct closed; [|done]. exfalso. revert E E2. unfold scan at 1. cbn [sc_rest sc_ready].
      destruct s as [|c r]; [done|]. destruct (is_digit c && negb (ceqb c "0")); [|by repeat case_match].
      destruct (scan_len true 0 (String c r)) as [[k r']|] eqn:El; [|done]. intros [= <- <-]. unfold scan. cbn [sc_rest sc_ready].
      destruct r' as [|c' r']; [done|]. destruct (is_digit c' && negb (ceqb c' "0")); [|by repeat case_match].
      destruct (scan_len true 0 (String c' r')) as [[??]|] eqn:El2; [done|]. exfalso.
      clear -El2. revert El2. generalize 0. generalize (String c' r'). intros s. induction s as [|c s IH]; intros z; cbn; [done|].
      destruct (nul c); [done|]. destruct (is_digit c); [apply IH|done]. }
  destruct t2 as [| | | |]; try (right; right; intros fuel; cbn [loop]; by rewrite E2).
  destruct (scan size closed st2) as [[t3 st3]|] eqn:E3.
  2:{ right; left. split; [|intros fuel; cbn [loop]; by rewrite E2, E3]. destruct closed; [|done]. exfalso. revert E3. unfold scan.
      destruct (sc_rest st2) as [|c r] eqn:Er; [done|]. destruct (sc_ready st2) eqn:Ey.
      - unfold scan_msg. by repeat case_match.
      - exfalso. revert E2. unfold scan. destruct (sc_rest st); [done|]. destruct (sc_ready st); [unfold scan_msg; by repeat case_match|].
        destruct (is_digit a && negb (ceqb a "0")); [by repeat case_match|]. destruct (nul a); [done|]. destruct (ceqb a " "); [|done].
        intros [= <-]. done. }
  destruct t3 as [| |m| |]; try (right; right; intros fuel; cbn [loop]; by rewrite E2, E3).
  left. revert E. unfold scan. cbn [sc_rest sc_ready]. destruct s as [|c r]; [by destruct closed|].
  destruct (is_digit c && negb (ceqb c "0")) eqn:D; [|by repeat case_match].
  destruct (scan_len closed 0 (String c r)) as [[k r']|] eqn:El; [|done]. intros [= <- <-].
  apply andb_prop in D as [D Hz]. apply negb_true_iff in Hz.
  assert (exists r2, r' = String " " r2 /\ st2 = mk_scan r2 k true) as (r2 & -> & ->).
  { revert E2. unfold scan. cbn [sc_rest sc_ready sc_len]. destruct r' as [|c' r2]; [by destruct closed|].
    destruct (is_digit c' && negb (ceqb c' "0")); [by repeat case_match|]. destruct (nul c'); [done|]. destruct (ceqb c' " ") eqn:Ec; [|done].
    intros [= <-]. apply bool_decide_eq_true_1 in Ec as ->. eauto. }
  revert E3. unfold scan. cbn [sc_rest sc_ready]. destruct r2 as [|c2 r2']; [by destruct closed|]. change (String c2 r2') with (String c2 r2') in *. remember (String c2 r2') as t2 eqn:Et2. clear E2 Et2 c2 r2'.
  unfold scan_msg. cbn [sc_rest sc_len]. apply scan_len_inv in El as (d & Hd & Hs).
  assert (Hk : 0 < k /\ exists d', d = String c d').
  { destruct d as [|c0 d'].
    - exfalso. cbn in Hs. destruct Hs as [[[= -> ->] _]|[= -> ->]]; done.
    - assert (c0 = c) as -> by (destruct Hs as [[Hs _]|Hs]; cbn in Hs; by injection Hs as -> _). split; [by eapply head_pos|eauto]. }
  destruct Hk as [Hk (d' & ->)].
  destruct (Z.ltb_spec (to_int k) 0) as [|Hnn]; [done|]. pose proof (to_int_inv k ltac:(lia) Hnn) as ->.
  destruct (Z.ltb_spec (Z.of_nat (String.length t2)) (Z.min k (Z.of_nat size))) as [|Hl]; [by destruct closed|].
  destruct (Z.ltb_spec (Z.of_nat size) k) as [|Hk2]; [done|]. intros [= <- <-].
  destruct (substring_skip (Z.to_nat k) t2) as [Et Lt]; [lia|].
  set (m := substring 0 (Z.to_nat k) t2) in *. set (rest := skip (Z.to_nat k) t2) in *.
  assert (Hc : counts (String c d') m).
  { split; [|intros [= ->]; done]. rewrite Lt, Z2Nat.id by lia. by apply digits_numeral. }
  destruct Hs as [[Hs _]|Hs].
  - exists m, (append (String c d') (append " " m)), rest. split; [exists (String c d'); eauto|]. split; [lia|].
    rewrite Hs, Et. cbn. by rewrite sapp_assoc.
  - exists m, (append (String c d') (String "000" (append " " m))), rest. split; [exists (String c d'); eauto|]. split; [lia|].
    rewrite Hs, Et. cbn. by rewrite sapp_assoc.
Qed.

Lemma loose_len m f : loose_frame m f -> (1 <= String.length f)%nat.
Proof.
  clear Hsize. intros (d & Hc & Hf). apply counts_head in Hc as (c & d' & -> & _). destruct Hf as [-> | ->]; cbn; lia.
Qed.

(** the end or a zero byte *)
Definition over (closed : bool) (rest : string) : Prop := rest = EmptyString /\ closed = true \/ exists r, rest = String "000" r.
Lemma scan_end closed rest st : scan size closed (mk_scan rest 0 false) = Some (TEnd, st) -> over closed rest.
Proof.
  unfold scan. cbn [sc_rest sc_ready]. destruct rest as [|c r]; [destruct closed; [by left|done]|].
  destruct (is_digit c && _); [by repeat case_match|]. destruct (nul c) eqn:N; [|by repeat case_match]. intros _. right. exists r.
  f_equal. revert N. destruct c as [[] [] [] [] [] [] [] []]; by vm_compute.
Qed.

(** The whole reader: the well-formed frames at the front, and then at most one error. *)
Definition good (m : string) : Prop := (String.length m <= size)%nat /\ is_Some (rfc5424 m).
Definition no_frame (rest : string) : Prop := forall m f r, loose_frame m f -> good m -> rest <> append f r.
Lemma over_no_frame closed rest : over closed rest -> no_frame rest.
Proof.
  clear Hsize.
  intros H m f r (d & Hc & Hf) _ E. apply counts_head in Hc as (c & d' & -> & D & _).
  destruct H as [[-> _]|(r' & ->)]; destruct Hf as [-> | ->]; cbn in E; try discriminate; injection E as E _; subst; done.
Qed.
Lemma shape closed : forall k s fuel, (String.length s <= k)%nat -> (k < fuel)%nat -> exists ms t rest tail e,
  loop size rfc5424 closed fuel (scan size closed (mk_scan s 0 false)) = (map rfc5424 ms ++ tail, e) /\
  stream loose_frame ms t /\ s = append t rest /\ Forall good ms /\ no_frame rest /\
  (tail = [None] /\ e = true /\ (ms = [] \/ ~ over closed rest) \/ tail = [] /\ e = true /\ ms <> [] /\ over closed rest \/ tail = [] /\ e = false /\ closed = false).
Proof.
  induction k as [|k IH]; intros s fuel Hk Hf.
  all: destruct fuel as [|fuel]; [lia|].
  all: destruct (round closed s) as [(m & f & rest & Hl & Hm & ->)|[[Hc E]|E]].
  1:{ exfalso. apply loose_len in Hl. rewrite slen_app in Hk. lia. }
  1,4:exists [], EmptyString, s, [], false; rewrite E; split_and!; [done|constructor|done|done| |right; right; done];
      intros m f r Hl [Hm [x Hx]] ->; specialize (E (S fuel)); rewrite (loop_frame closed (S fuel) m f r Hl Hm) in E; unfold after in E; rewrite Hx in E;
      by repeat case_match.
  1,3:exists [], EmptyString, s, [None], true; rewrite E; split_and!; [done|constructor|done|done| |left; split_and!; [done|done|by left]];
      intros m f r Hl [Hm [x Hx]] ->; specialize (E (S fuel)); rewrite (loop_frame closed (S fuel) m f r Hl Hm) in E; unfold after in E; rewrite Hx in E;
      by repeat case_match.
  rewrite (loop_frame closed fuel m f rest Hl Hm). unfold after. destruct (rfc5424 m) as [x|] eqn:Hx.
  2:{ exists [], EmptyString, (append f rest), [None], true. split_and!; [done|constructor|done|done| |left; split_and!; [done|done|by left]].
      intros m' f' r' Hl' [Hm' [x' Hx']] E. pose proof (loop_frame closed fuel m f rest Hl Hm) as E1.
      rewrite E in E1. rewrite (loop_frame closed fuel m' f' r' Hl' Hm') in E1. unfold after in E1. rewrite Hx, Hx' in E1. by repeat case_match. }
  assert (Hlen : (String.length rest <= k)%nat) by (apply loose_len in Hl; rewrite slen_app in Hk; lia).
  assert (Hgm : good m) by (split; [done|by rewrite Hx]).
  destruct (scan size closed (mk_scan rest 0 false)) as [[t st]|] eqn:Es.
  - assert (t = TEnd \/ t <> TEnd) as [->|Ht] by (destruct t; by (left + right)).
    + apply scan_end in Es. exists [m], f, rest, [], true. split_and!; [by cbn; rewrite Hx| |done|by constructor|by eapply over_no_frame|right; left; done].
      rewrite <-(sapp_nil f). by repeat constructor.
    + assert (E : match t with TEnd => ([Some x], true) | _ => let '(rs, e) := loop size rfc5424 closed fuel (Some (t, st)) in (Some x :: rs, e) end
                  = let '(rs, e) := loop size rfc5424 closed fuel (Some (t, st)) in (Some x :: rs, e)) by (by destruct t).
      destruct (IH rest fuel Hlen ltac:(lia)) as (ms & t' & rest' & tail & e & E' & Hs & -> & Hg & Hn & Ht').
      rewrite Es in E'. exists (m :: ms), (append f t'), rest', tail, e. split_and!.
      * destruct t; try done; rewrite E'; cbn; by rewrite Hx.
      * by constructor.
      * by rewrite sapp_assoc.
      * by constructor.
      * done.
      * destruct Ht' as [(-> & -> & [-> | H])|[(-> & -> & H & H')|H]]; [left|left|right; left|right; right]; try done.
        -- split_and!; [done|done|]. right. intros Ho. apply Ht. inversion Hs; subst. cbn [append] in *.
           destruct Ho as [[-> ->]|(r & ->)]; cbn in Es; by injection Es as <- _.
        -- split_and!; [done|done|by right].
  - destruct (IH rest fuel Hlen ltac:(lia)) as (ms & t' & rest' & tail & e & E' & Hs & -> & Hg & Hn & Ht').
    rewrite Es in E'. destruct fuel as [|fuel']; [lia|]. cbn [loop] in E'. injection E' as E1 E2.
    exists (m :: ms), (append f t'), rest', tail, e. split_and!.
    + cbn [loop map]. rewrite <-E2, Hx. cbn. by rewrite <-E1.
    + by constructor.
    + by rewrite sapp_assoc.
    + by constructor.
    + done.
    + destruct Ht' as [(-> & -> & _)|[(-> & -> & _)|H]]; [done|done|right; right; done].
Qed.

(** Growing input *)
Lemma scan_len_more closed b : forall a acc n r, scan_len false acc a = Some (n, r) -> scan_len closed acc (append a b) = Some (n, append r b).
Proof.
  induction a as [|c a IH]; intros acc n r H; cbn in H; [done|]. cbn. destruct (nul c); [by injection H as <- <-|].
  destruct (is_digit c); [by apply IH|]. by injection H as <- <-.
Qed.
Definition grown (st : scanner) (b : string) : scanner := mk_scan (append (sc_rest st) b) (sc_len st) (sc_ready st).
Lemma take_more n : forall a b, (n <= String.length a)%nat -> String.substring 0 n (append a b) = String.substring 0 n a /\ skip n (append a b) = append (skip n a) b.
Proof.
  induction n as [|n IH]; intros [|c a] b H; cbn in *; [by destruct b|done|lia|]. destruct (IH a b) as [-> ->]; [lia|done].
Qed.
Lemma scan_more closed b st t st' : scan size false st = Some (t, st') -> scan size closed (grown st b) = Some (t, grown st' b).
Proof.
  destruct st as [s n y]. unfold scan, grown. cbn [sc_rest sc_ready sc_len]. destruct s as [|c r]; [done|]. cbn [append].
  destruct y.
  - unfold scan_msg. cbn [sc_rest sc_len]. change (String c (append r b)) with (append (String c r) b). rewrite slen_app.
    destruct (Z.ltb_spec (to_int n) 0); [by intros [= <- <-]|].
    destruct (Z.ltb_spec (Z.of_nat (String.length (String c r))) (Z.min (to_int n) (Z.of_nat size))); [done|].
    destruct (Z.ltb_spec (Z.of_nat (String.length (String c r) + String.length b)) (Z.min (to_int n) (Z.of_nat size))); [lia|].
    destruct (Z.ltb_spec (Z.of_nat size) (to_int n)); [by intros [= <- <-]|]. intros [= <- <-]. cbn [sc_rest sc_len sc_ready].
    destruct (take_more (Z.to_nat (to_int n)) (String c r) b) as [-> ->]; [lia|done].
  - destruct (is_digit c && _).
    + destruct (scan_len false 0 (String c r)) as [[k r']|] eqn:E; [|done]. intros [= <- <-].
      change (String c (append r b)) with (append (String c r) b). by rewrite (scan_len_more closed b _ _ _ _ E).
    + destruct (nul c); [by intros [= <- <-]|]. destruct (ceqb c " "); by intros [= <- <-].
Qed.
Lemma loop_more closed b : forall fuel st fuel' rs e, (fuel <= fuel')%nat ->
  loop size rfc5424 false fuel (scan size false st) = (rs, e) ->
  exists more e', loop size rfc5424 closed fuel' (scan size closed (grown st b)) = (rs ++ more, e') /\ (e = true -> more = [] /\ e' = true).
Proof.
  assert (Z : forall X : list (option M) * bool, exists more e', X = ([] ++ more, e') /\ (false = true -> more = [] /\ e' = true)).
  { intros [m e]. by exists m, e. }
  induction fuel as [|fuel IH]; intros st fuel' rs e Hle H.
  { cbn in H. injection H as <- <-. apply Z. }
  destruct fuel' as [|fuel']; [lia|]. cbn [loop] in *.
  destruct (scan size false st) as [[t st1]|] eqn:E1; [|injection H as <- <-; apply Z].
  rewrite (scan_more closed b _ _ _ E1).
  assert (D : forall l : list (option M), exists more e', (l, true) = (l ++ more, e') /\ (true = true -> more = [] /\ e' = true))
    by (intros l; exists [], true; by rewrite app_nil_r).
  destruct t; [|injection H as <- <-; apply D..].
  destruct (scan size false st1) as [[t st2]|] eqn:E2; [|injection H as <- <-; apply Z].
  rewrite (scan_more closed b _ _ _ E2). destruct t; try (injection H as <- <-; apply D).
  destruct (scan size false st2) as [[t st3]|] eqn:E3; [|injection H as <- <-; apply Z].
  rewrite (scan_more closed b _ _ _ E3). destruct t as [| |m| |]; try (injection H as <- <-; apply D).
  destruct (rfc5424 m) as [x|]; [|injection H as <- <-; apply D].
  destruct (scan size false st3) as [[t st4]|] eqn:E4.
  - rewrite (scan_more closed b _ _ _ E4).
    assert (t = TEnd \/ t <> TEnd) as [->|Ht] by (destruct t; by (left + right)); [injection H as <- <-; apply D|].
    destruct (loop size rfc5424 false fuel (Some (t, st4))) as [rs' e'] eqn:El.
    assert (rs = Some x :: rs' /\ e = e') as [-> ->] by (destruct t; try done; rewrite El in H; by injection H as <- <-).
    destruct (IH st3 fuel' rs' e' ltac:(lia)) as (more & e2 & E & He); [by rewrite E4|]. rewrite (scan_more closed b _ _ _ E4) in E.
    exists more, e2. split; [|done]. destruct t; try done; by rewrite E.
  - destruct (loop size rfc5424 false fuel None) as [rs' e'] eqn:El. assert (rs' = [] /\ e' = false) as [-> ->] by (destruct fuel; cbn in El; by injection El as <- <-).
    injection H as <- <-. destruct (scan size closed (grown st3 b)) as [[t ?]|]; [destruct t|].
    all: match goal with |- context [loop ?a ?b ?c ?d ?e] => destruct (loop a b c d e) as [r' e'']; by exists r', e'' | _ => by exists [], true end.
Qed.
End octet.

Section more.
Context {M : Type}.
Variable size : nat.
Variable rfc5424 : string -> option M.
Variable Hsize : Z.of_nat size < 2^63.

Lemma scan_empty closed : scan size closed (mk_scan EmptyString 0 false) = if closed then Some (TEnd, mk_scan EmptyString 0 false) else None.
Proof. done. Qed.
Lemma not_end closed rest : ~ over closed rest -> forall st, scan size closed (mk_scan rest 0 false) <> Some (TEnd, st).
Proof. intros H st E. by apply scan_end in E. Qed.
(** after a message: over, or from the beginning *)
Lemma after_msg closed fuel m x rest : rfc5424 m = Some x ->
  (over closed rest -> after size rfc5424 closed fuel m rest = ([Some x], true)) /\
  (~ over closed rest -> after size rfc5424 closed fuel m rest =
     let '(rs, e) := loop size rfc5424 closed fuel (scan size closed (mk_scan rest 0 false)) in (Some x :: rs, e)).
Proof.
  intros Hx. unfold after. rewrite Hx. split.
  - intros [[-> ->]|(r & ->)]; done.
  - intros H. destruct (scan size closed (mk_scan rest 0 false)) as [[t st]|] eqn:E; [|done]. destruct t; try done.
    exfalso. by eapply not_end.
Qed.
Lemma over_dec closed rest : over closed rest \/ ~ over closed rest.
Proof.
  destruct rest as [|c r].
  - destruct closed; [left; by left|right]. intros [[_ H]|[? H]]; done.
  - destruct (decide (c = "000"%char)) as [->|N]; [left; right; eauto|right]. intros [[H _]|[r' [= H _]]]; done.
Qed.

Lemma front closed : forall ms t, stream loose_frame ms t -> Forall (good size rfc5424) ms -> ms <> [] -> forall fuel rest, (length ms < fuel)%nat ->
  (over closed rest -> loop size rfc5424 closed fuel (scan size closed (mk_scan (append t rest) 0 false)) = (map rfc5424 ms, true)) /\
  (~ over closed rest -> exists k, (fuel = length ms + k)%nat /\
     loop size rfc5424 closed fuel (scan size closed (mk_scan (append t rest) 0 false)) =
     let '(rs, e) := loop size rfc5424 closed k (scan size closed (mk_scan rest 0 false)) in (map rfc5424 ms ++ rs, e)).
Proof.
  intros ms t Hs. induction Hs as [|m f ms t Hf Hs IH]; intros Hg Hne fuel rest Hfuel; [done|].
  apply Forall_cons in Hg as [[Hm [x Hx]] Hg]. destruct fuel as [|fuel]; [lia|]. rewrite sapp_assoc.
  rewrite (loop_frame size rfc5424 Hsize closed fuel m f _ Hf Hm). destruct (after_msg closed fuel m x (append t rest) Hx) as [A1 A2].
  destruct ms as [|m2 ms].
  - inversion Hs; subst. cbn [append] in *. split; intros Ho.
    + rewrite (A1 Ho). cbn. by rewrite Hx.
    + exists fuel. split; [done|]. rewrite (A2 Ho). destruct (loop _ _ _ _ _). cbn. by rewrite Hx.
  - assert (Hno : ~ over closed (append t rest)).
    { intros Ho. inversion Hs as [|? f2 ? t2 Hf2 Hs2]; subst. eapply (over_no_frame size rfc5424); [exact Ho|exact Hf2| |by rewrite sapp_assoc].
      by apply Forall_cons in Hg as [? _]. }
    rewrite (A2 Hno). destruct (IH Hg ltac:(done) fuel rest ltac:(cbn in *; lia)) as [I1 I2]. split; intros Ho.
    + rewrite (I1 Ho). cbn. by rewrite Hx.
    + destruct (I2 Ho) as (k & -> & ->). exists k. split; [done|]. destruct (loop _ _ _ k _). cbn. by rewrite Hx.
Qed.
Lemma frame_loose m f : frame m f -> loose_frame m f.
Proof. intros (d & Hc & ->). exists d. auto. Qed.
Lemma stream_mono (F G : string -> string -> Prop) ms t : (forall m f, F m f -> G m f) -> stream F ms t -> stream G ms t.
Proof. intros H. induction 1; constructor; auto. Qed.
Lemma stream_len ms t : stream loose_frame ms t -> (length ms <= String.length t)%nat.
Proof. clear Hsize size rfc5424. induction 1 as [|m f ms s Hf Hs IH]; cbn; [lia|]. apply loose_len in Hf. rewrite slen_app. lia. Qed.

(** what ends the reader with an error *)
Lemma loop_illegal closed fuel c r : nul c = false -> is_digit c = false \/ c = "0"%char ->
  loop size rfc5424 closed (S fuel) (scan size closed (mk_scan (String c r) 0 false)) = ([None], true).
Proof.
  intros N D. unfold scan. cbn [sc_rest sc_ready].
  assert (is_digit c && negb (ceqb c "0") = false) as -> by (destruct D as [-> | ->]; done). rewrite N. by destruct (ceqb c " ").
Qed.
Lemma loop_long closed fuel m f r : frame m f -> (size < String.length m)%nat ->
  loop size rfc5424 closed (S fuel) (scan size closed (mk_scan (append f r) 0 false)) = ([None], true).
Proof.
  intros (d & Hc & ->) Hm. apply counts_head in Hc as (c & d' & Ed & D & Hz & E). rewrite !sapp_assoc.
  pose proof (scan_len_stop closed d 0 _ (append " " (append m r)) E) as H. cbn in H. destruct H as [_ H]. specialize (H ltac:(done) ltac:(done)).
  assert (H1 : scan size closed (mk_scan (append d (append " " (append m r))) 0 false) =
               Some (TLen (Z.of_nat (String.length m)), mk_scan (append " " (append m r)) (Z.of_nat (String.length m)) false)).
  { unfold scan. cbn [sc_rest sc_ready]. cbn [append] in *. rewrite H. rewrite Ed. cbn. by rewrite D, Hz. }
  rewrite H1. cbn [loop].
  change (scan size closed (mk_scan (append " " (append m r)) (Z.of_nat (String.length m)) false)) with
    (Some (TSpace, mk_scan (append m r) (Z.of_nat (String.length m)) true)). cbn iota beta.
  assert (Hne : forall a b, (match append m r with EmptyString => a | String _ _ => b end) = b :> option (token * scanner))
    by (intros; destruct m; [cbn in Hm; lia|done]).
  unfold scan. cbn [sc_rest sc_ready]. rewrite Hne. unfold scan_msg. cbn [sc_rest sc_len]. rewrite slen_app.
  destruct (Z.ltb_spec (to_int (Z.of_nat (String.length m))) 0) as [|Hnn]; [done|].
  rewrite (to_int_inv (Z.of_nat (String.length m)) ltac:(lia) Hnn).
  destruct (Z.ltb_spec (Z.of_nat (String.length m + String.length r)) (Z.min (Z.of_nat (String.length m)) (Z.of_nat size))); [lia|].
  destruct (Z.ltb_spec (Z.of_nat size) (Z.of_nat (String.length m))); [done|lia].
Qed.
Lemma loop_bad closed fuel m f r : loose_frame m f -> (String.length m <= size)%nat -> rfc5424 m = None ->
  loop size rfc5424 closed (S fuel) (scan size closed (mk_scan (append f r) 0 false)) = ([None], true).
Proof. intros Hf Hm Hx. rewrite (loop_frame size rfc5424 Hsize closed fuel m f r Hf Hm). unfold after. by rewrite Hx. Qed.
End more.
