(** What the reader reads and the writer writes is the documented format. *)
From Coq Require Import Ascii String.
From stdpp Require Import prelude strings list.
From Verif.Json Require Import Spec.
From Verif.Wire Require Import Format Spec FormatProofs SpecFormat.
Open Scope Z_scope.

Lemma octet_value c : octet c = value c.
Proof. unfold octet, value, nat_of_ascii. lia. Qed.
Lemma octet_range c : 0 <= octet c < 256.
Proof. rewrite octet_value. apply value_range. Qed.

(** ** Reading *)
Lemma get_varint_iff k s n r : get_varint k s = Some (n, r) <-> exists p, s = p +:+ r /\ base128 n p /\ (String.length p <= k)%nat.
Proof.
  revert s n. induction k as [|k IH]; intros s n; split.
  - done.
  - intros (p & -> & Hp & Hl). destruct Hp; cbn in Hl; lia.
  - intros H. destruct s as [|c s]; [done|]. rewrite get_varint_S, <-octet_value in H. destruct (octet c <? 128) eqn:E.
    + injection H as <- <-. exists (String c ""). split; [done|]. split; [constructor; by apply Z.ltb_lt|cbn; lia].
    + destruct (get_varint k s) as [[m r']|] eqn:G; [|done]. cbn in H. injection H as <- <-. apply IH in G as (p & -> & Hp & Hl).
      exists (String c p). split; [done|]. split; [constructor; [by apply Z.ltb_ge|done]|cbn; lia].
  - intros (p & -> & Hp & Hl). destruct Hp as [c Hc|c m p Hc Hp]; rewrite app_cons, get_varint_S, <-octet_value.
    + apply Z.ltb_lt in Hc. by rewrite Hc.
    + apply Z.ltb_ge in Hc. rewrite Hc. rewrite (proj2 (IH (p +:+ r) m)); [done|]. exists p. cbn in Hl. split; [done|]. split; [done|lia].
Qed.
Lemma read_varint_iff s n r : read_varint s = Some (n, r) <-> exists p, s = p +:+ r /\ varint n p.
Proof.
  unfold read_varint, varint. split.
  - destruct (get_varint 10 s) as [[m r']|] eqn:G; [|done]. cbn [mbind option_bind]. destruct (m <? 2^64) eqn:E; [|done]. intros [= <- <-].
    apply get_varint_iff in G as (p & -> & Hp & Hl). exists p. split; [done|]. split; [done|]. split; [done|]. by apply Z.ltb_lt.
  - intros (p & -> & Hp & Hl & Hn). rewrite (proj2 (get_varint_iff 10 (p +:+ r) n r)) by by exists p. cbn [mbind option_bind]. apply Z.ltb_lt in Hn. by rewrite Hn.
Qed.
Lemma get_fixed_iff k s n r : get_fixed k s = Some (n, r) <-> exists p, s = p +:+ r /\ little_endian k n p.
Proof.
  revert s n. induction k as [|k IH]; intros s n; split.
  - intros [= <- <-]. exists "". split; [done|constructor].
  - intros (p & -> & Hp). by inversion Hp.
  - intros H. destruct s as [|c s]; [done|]. cbn [get_fixed] in H. destruct (get_fixed k s) as [[m r']|] eqn:G; [|done]. cbn in H. injection H as <- <-.
    apply IH in G as (p & -> & Hp). exists (String c p). split; [done|]. rewrite <-octet_value. by constructor.
  - intros (p & -> & Hp). inversion Hp as [|k' c m p' Hp' E1 E2 E3]; subst. rewrite app_cons. cbn [get_fixed].
    rewrite (proj2 (IH (p' +:+ r) m)) by by exists p'. cbn. by rewrite octet_value.
Qed.
Lemma cut_inv k s a b : cut k s = Some (a, b) -> s = a +:+ b /\ String.length a = k.
Proof.
  revert s a. induction k as [|k IH]; intros s a H; [by injection H as <- <-|]. destruct s as [|c s]; [done|]. cbn [cut] in H.
  destruct (cut k s) as [[a' b']|] eqn:E; [|done]. cbn in H. injection H as <- <-. apply IH in E as [-> <-]. done.
Qed.
Lemma read_wire_iff t s w r : read_wire t s = Some (w, r) <-> exists p, s = p +:+ r /\ value_of w t p.
Proof.
  unfold read_wire. split.
  - destruct (Z.eqb_spec t 0) as [->|_]; [|destruct (Z.eqb_spec t 1) as [->|_]; [|destruct (Z.eqb_spec t 2) as [->|_]; [|destruct (Z.eqb_spec t 5) as [->|_]; [|done]]]].
    + destruct (read_varint s) as [[n r']|] eqn:G; [|done]. intros [= <- <-]. apply read_varint_iff in G as (p & -> & Hp). exists p. split; [done|by constructor].
    + destruct (get_fixed 8 s) as [[n r']|] eqn:G; [|done]. intros [= <- <-]. apply get_fixed_iff in G as (p & -> & Hp). exists p. split; [done|by constructor].
    + destruct (read_varint s) as [[n r']|] eqn:G; [|done]. cbn [mbind option_bind]. apply read_varint_iff in G as (p & -> & Hp).
      destruct (n <=? _) eqn:E; [|done]. destruct (cut _ r') as [[a b]|] eqn:C; [|done]. intros [= <- <-]. apply cut_inv in C as [-> Hl].
      exists (p +:+ a). split; [by rewrite app_assoc|]. constructor. destruct Hp as (Hp & H1 & H2).
      assert (0 <= n). { clear -Hp. induction Hp as [c|c n s Hc Hs IH]; pose proof (octet_range c); lia. }
      replace (Z.of_nat (String.length a)) with n by lia. done.
    + destruct (get_fixed 4 s) as [[n r']|] eqn:G; [|done]. intros [= <- <-]. apply get_fixed_iff in G as (p & -> & Hp). exists p. split; [done|by constructor].
  - intros (p & -> & Hp). destruct Hp as [n p Hp|n p Hp|a l Hl|n p Hp]; cbn [Z.eqb Pos.eqb].
    + rewrite (proj2 (read_varint_iff (p +:+ r) n r)) by by exists p. done.
    + rewrite (proj2 (get_fixed_iff 8 (p +:+ r) n r)) by by exists p. done.
    + rewrite app_assoc. rewrite (proj2 (read_varint_iff (l +:+ (a +:+ r)) (Z.of_nat (String.length a)) (a +:+ r))) by by exists l. cbn [mbind option_bind].
      destruct (_ <=? _) eqn:E; [|apply Z.leb_gt in E; rewrite app_length in E; lia]. rewrite Nat2Z.id, cut_app. done.
    + rewrite (proj2 (get_fixed_iff 4 (p +:+ r) n r)) by by exists p. done.
Qed.
Lemma value_type w t p : value_of w t p -> 0 <= t < 8.
Proof. destruct 1; lia. Qed.
Lemma read_field_iff s k w r : read_field s = Some ((k, w), r) <->
  exists t tag body, s = tag +:+ (body +:+ r) /\ 1 <= k /\ varint (8 * k + t) tag /\ value_of w t body.
Proof.
  unfold read_field. split.
  - destruct (read_varint s) as [[x r1]|] eqn:G; [|done]. cbn [mbind option_bind]. apply read_varint_iff in G as (tag & -> & Ht).
    destruct (Z.eqb_spec (x / 8) 0) as [|Hx]; [done|]. destruct (read_wire (x mod 8) r1) as [[w' r2]|] eqn:W; [|done]. intros [= <- <- <-].
    apply read_wire_iff in W as (body & -> & Hb). exists (x mod 8), tag, body. split; [done|].
    assert (0 <= x). { destruct Ht as [Hp _]. clear -Hp. induction Hp as [c|c n s Hc Hs IH]; pose proof (octet_range c); lia. }
    pose proof (Z.div_pos x 8). split; [lia|]. split; [|done]. rewrite <-(Z.div_mod x 8) by lia. done.
  - intros (t & tag & body & -> & Hk & Ht & Hb). rewrite (proj2 (read_varint_iff _ (8 * k + t) (body +:+ r))) by by exists tag. cbn [mbind option_bind].
    pose proof (value_type _ _ _ Hb) as Hr.
    assert (E1 : (8 * k + t) / 8 = k) by (symmetry; apply (Z.div_unique _ 8 k t); lia).
    assert (E2 : (8 * k + t) mod 8 = t) by (symmetry; apply (Z.mod_unique _ 8 k t); lia).
    rewrite E1, E2. destruct (Z.eqb_spec k 0); [lia|]. rewrite (proj2 (read_wire_iff t (body +:+ r) w r)) by by exists body. done.
Qed.
Lemma varint_length n s : varint n s -> (1 <= String.length s)%nat.
Proof. intros [H _]. destruct H; cbn; lia. Qed.
Lemma read_some_iff k s fs : (String.length s <= k)%nat -> read_some k s = Some fs <-> message fs s.
Proof.
  revert s fs. induction k as [|k IH]; intros s fs Hl; split.
  - destruct s; [|cbn in Hl; lia]. intros [= <-]. constructor.
  - intros H. destruct H as [|f w t tag body fs s Hk Ht Hb Hm]; [done|]. rewrite app_length in Hl. apply varint_length in Ht. lia.
  - destruct s as [|c s]; [intros [= <-]; constructor|]. cbn [read_some]. destruct (read_field (String c s)) as [[[f w] r]|] eqn:F; [|done].
    cbn [mbind option_bind]. destruct (read_some k r) as [gs|] eqn:G; [|done]. intros [= <-]. apply read_field_iff in F as (t & tag & body & E & H1 & H2 & H3).
    rewrite E in *. econstructor; [done|done|done|]. apply IH; [|done]. pose proof (varint_length _ _ H2). rewrite !app_length in Hl. lia.
  - intros H. destruct H as [|f w t tag body fs s Hk Ht Hb Hm]; [done|].
    assert (F : read_field (tag +:+ (body +:+ s)) = Some ((f, w), s)) by (apply read_field_iff; by exists t, tag, body).
    pose proof (varint_length _ _ Ht). rewrite !app_length in Hl. apply IH in Hm; [|lia].
    destruct (tag +:+ (body +:+ s)) as [|c x] eqn:E; [destruct tag; [cbn in *; lia|done]|]. cbn [read_some]. rewrite F. cbn [mbind option_bind]. by rewrite Hm.
Qed.
Lemma read_iff s fs : read_fields s = Some fs <-> message fs s.
Proof. by apply read_some_iff. Qed.
Lemma write_message fs : legal fs -> message fs (write_fields fs).
Proof.
  intros H. apply read_iff. apply read_write_fields. eapply Forall_impl; [exact H|]. intros [k w] [H1 H2]. cbn [fst snd] in *. split; [cbn; lia|].
  cbn [snd]. destruct w; exact H2.
Qed.
(** numbers are written in as few bytes as they take *)
Lemma write_varint_minimal n : 0 <= n < 2^64 -> varint n (write_varint n) /\ forall s, base128 n s -> (String.length (write_varint n) <= String.length s)%nat.
Proof.
  intros Hn. split.
  - assert (E : read_varint (write_varint n +:+ "") = Some (n, "")) by by apply read_write_varint. apply read_varint_iff in E as (p & E & Hp).
    rewrite !app_nil_r in E. by rewrite E.
  - unfold write_varint. generalize 10%nat as k. intros k s Hs. revert k. clear Hn. induction Hs as [c Hc|c n s Hc Hs IH]; intros k.
    + destruct k as [|k]; [cbn; lia|]. rewrite put_varint_S. apply Z.ltb_lt in Hc. rewrite Hc. cbn. lia.
    + destruct k as [|k]; [cbn; lia|]. rewrite put_varint_S. destruct (_ <? 128); [cbn; lia|]. pose proof (octet_range c).
      replace ((octet c - 128 + 128 * n) / 128) with n by (apply (Z.div_unique _ 128 n (octet c - 128)); lia). cbn [String.length]. specialize (IH k). lia.
Qed.
