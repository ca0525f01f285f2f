(** Reading gives back what was written, and goes on behind it. *)
From Coq Require Import Ascii String.
From stdpp Require Import prelude strings list.
From Verif.Wire Require Import Format.
Open Scope Z_scope.

Lemma value_byte z : 0 <= z < 256 -> value (byte z) = z.
Proof. intros H. unfold value, byte. rewrite N_ascii_embedding by lia. lia. Qed.
Lemma value_range c : 0 <= value c < 256.
Proof. unfold value. pose proof (N_ascii_bounded c). lia. Qed.

Lemma app_cons c a b : String c a +:+ b = String c (a +:+ b).
Proof. done. Qed.
Lemma app_nil_r s : s +:+ "" = s.
Proof. induction s as [|c s IH]; [done|]. by rewrite app_cons, IH. Qed.
Lemma app_assoc (a b c : string) : (a +:+ b) +:+ c = a +:+ (b +:+ c).
Proof. induction a as [|x a IH]; [done|]. by rewrite !app_cons, IH. Qed.
Lemma app_length a b : String.length (a +:+ b) = (String.length a + String.length b)%nat.
Proof. induction a as [|x a IH]; [done|]. rewrite app_cons. cbn. by rewrite IH. Qed.

Lemma put_varint_S k n : put_varint (S k) n =
  if n <? 128 then String (byte n) EmptyString else String (byte (n mod 128 + 128)) (put_varint k (n / 128)).
Proof. done. Qed.
Lemma get_varint_S k c r : get_varint (S k) (String c r) =
  if value c <? 128 then Some (value c, r) else '(n, r') ← get_varint k r; Some (value c - 128 + 128 * n, r').
Proof. done. Qed.
Lemma get_put_varint k n r : 0 <= n < 128 ^ Z.of_nat (S k) -> get_varint (S k) (put_varint (S k) n +:+ r) = Some (n, r).
Proof.
  revert n. induction k as [|k IH]; intros n Hn; rewrite put_varint_S; destruct (n <? 128) eqn:E.
  1,3: apply Z.ltb_lt in E; rewrite app_cons, get_varint_S, value_byte by lia;
    destruct (n <? 128) eqn:E'; [done|]; apply Z.ltb_ge in E'; lia.
  all: apply Z.ltb_ge in E.
  { change (128 ^ Z.of_nat 1) with 128 in Hn. lia. }
  rewrite app_cons, get_varint_S. pose proof (Z.mod_pos_bound n 128 ltac:(lia)).
  rewrite value_byte by lia. destruct (n mod 128 + 128 <? 128) eqn:E'; [apply Z.ltb_lt in E'; lia|].
  rewrite IH.
  - cbn. f_equal. f_equal. pose proof (Z.div_mod n 128). lia.
  - replace (Z.of_nat (S (S k))) with (1 + Z.of_nat (S k)) in Hn by lia. rewrite Z.pow_add_r in Hn by lia.
    split; [apply Z.div_pos; lia|]. apply Z.div_lt_upper_bound; lia.
Qed.
Lemma read_write_varint n r : 0 <= n < 2^64 -> read_varint (write_varint n +:+ r) = Some (n, r).
Proof.
  intros H. unfold read_varint, write_varint. rewrite get_put_varint.
  - cbn. destruct (n <? 2^64) eqn:E; [done|]. apply Z.ltb_ge in E. lia.
  - split; [lia|]. etransitivity; [apply H|]. done.
Qed.
Lemma write_varint_length n : (1 <= String.length (write_varint n) <= 10)%nat.
Proof.
  unfold write_varint. split.
  - cbn. by destruct (n <? 128); cbn; lia.
  - assert (G : forall k m, (String.length (put_varint k m) <= k)%nat).
    { induction k as [|k IH]; intros m; cbn [put_varint]; [done|]. destruct (m <? 128); cbn; [lia|]. pose proof (IH (m / 128)). lia. }
    apply G.
Qed.

Lemma get_put_fixed k n r : 0 <= n < 256 ^ Z.of_nat k -> get_fixed k (put_fixed k n +:+ r) = Some (n, r).
Proof.
  revert n. induction k as [|k IH]; intros n Hn; [change (256 ^ Z.of_nat 0) with 1 in Hn; assert (n = 0) as -> by lia; done|].
  cbn [put_fixed]. rewrite app_cons. cbn [get_fixed]. pose proof (Z.mod_pos_bound n 256 ltac:(lia)).
  rewrite IH.
  - cbn. rewrite value_byte by lia. f_equal. f_equal. pose proof (Z.div_mod n 256). lia.
  - replace (Z.of_nat (S k)) with (1 + Z.of_nat k) in Hn by lia. rewrite Z.pow_add_r in Hn by lia.
    split; [apply Z.div_pos; lia|]. apply Z.div_lt_upper_bound; lia.
Qed.
Lemma cut_app a b : cut (String.length a) (a +:+ b) = Some (a, b).
Proof. induction a as [|c a IH]; [done|]. rewrite app_cons. cbn [cut String.length]. by rewrite IH. Qed.

(** what the format can say *)
Definition wire_ok (w : wire) : Prop :=
  match w with
  | Varint n => 0 <= n < 2^64 | Fixed64 n => 0 <= n < 2^64
  | Bytes s => Z.of_nat (String.length s) < 2^64 | Fixed32 n => 0 <= n < 2^32
  end.
Definition field_ok (f : field) : Prop := 1 <= f.1 < 2^29 /\ wire_ok f.2.

Lemma read_write_wire w r : wire_ok w -> read_wire (wire_type w) (write_wire w +:+ r) = Some (w, r).
Proof.
  destruct w as [n|n|s|n]; cbn [wire_ok wire_type write_wire]; intros H; unfold read_wire; cbn [Z.eqb Pos.eqb].
  - by rewrite read_write_varint.
  - by rewrite get_put_fixed.
  - rewrite app_assoc, read_write_varint by lia. cbn [mbind option_bind]. rewrite app_length.
    destruct (Z.of_nat (String.length s) <=? _) eqn:E; [|apply Z.leb_gt in E; lia].
    by rewrite Nat2Z.id, cut_app.
  - by rewrite get_put_fixed.
Qed.
Lemma wire_type_range w : 0 <= wire_type w < 8.
Proof. by destruct w. Qed.
Lemma read_write_field f r : field_ok f -> read_field (write_field f +:+ r) = Some (f, r).
Proof.
  destruct f as [k w]. intros [Hk Hw]. cbn [fst snd] in *. unfold read_field, write_field. cbn [fst snd].
  pose proof (wire_type_range w) as Ht. rewrite app_assoc, read_write_varint by lia. cbn [mbind option_bind].
  replace (k * 8 + wire_type w) with (wire_type w + k * 8) by lia.
  rewrite Z.div_add, Z.mod_add, Z.mod_small, Z.div_small by lia. rewrite Z.add_0_l.
  destruct (k =? 0) eqn:E; [apply Z.eqb_eq in E; lia|]. by rewrite read_write_wire.
Qed.
Lemma write_field_length f : (1 <= String.length (write_field f))%nat.
Proof. unfold write_field. rewrite app_length. pose proof (write_varint_length (f.1 * 8 + wire_type f.2)). lia. Qed.
Lemma read_some_write fs n : Forall field_ok fs -> (String.length (write_fields fs) <= n)%nat ->
  read_some n (write_fields fs) = Some fs.
Proof.
  revert n. induction fs as [|f fs IH]; intros n Hok Hn; [by destruct n|].
  apply Forall_cons in Hok as [Hf Hok]. cbn [write_fields] in *. rewrite app_length in Hn.
  pose proof (write_field_length f) as Hl.
  destruct n as [|n]; [lia|]. destruct (write_field f +:+ write_fields fs) as [|c s] eqn:E.
  { apply (f_equal String.length) in E. rewrite app_length in E. cbn in E. lia. }
  cbn [read_some]. rewrite <-E, read_write_field by done. cbn [mbind option_bind]. rewrite IH by (done || lia). done.
Qed.
Lemma read_write_fields fs : Forall field_ok fs -> read_fields (write_fields fs) = Some fs.
Proof. intros H. unfold read_fields. by apply read_some_write. Qed.
Lemma write_fields_app a b : write_fields (a ++ b) = write_fields a +:+ write_fields b.
Proof. induction a as [|f a IH]; [done|]. cbn. by rewrite IH, app_assoc. Qed.

(** a text is no longer than the message that holds it *)
Lemma bytes_fit fs k s : (k, Bytes s) ∈ fs -> (String.length s <= String.length (write_fields fs))%nat.
Proof.
  induction fs as [|f fs IH]; intros H; [by apply elem_of_nil in H|]. cbn [write_fields]. rewrite app_length.
  apply elem_of_cons in H as [<-|H].
  - unfold write_field. cbn [fst snd write_wire]. rewrite !app_length. lia.
  - specialize (IH H). lia.
Qed.
