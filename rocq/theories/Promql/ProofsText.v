(** Metric names are translated character by character. *)
From Coq Require Import Ascii String NArith ZArith Lia.
From stdpp Require Import prelude strings.
From Verif.Base Require Import Str.
From Verif.Promql Require Import Model SpecText.
Open Scope N_scope.

Lemma byte_in_N lo hi n : n < 256 -> byte_in lo hi (ascii_of_N n) = (N.of_nat lo <=? n) && (n <=? N.of_nat hi).
Proof.
  intros Hn. unfold byte_in. unfold nat_of_ascii. rewrite N_ascii_embedding by lia.
  apply eq_bool_prop_intro. rewrite !andb_True, !Is_true_true, !Nat.leb_le, !N.leb_le. lia.
Qed.
Lemma ceqb_N a n : n < 256 -> ceqb (ascii_of_N n) a = (n =? N_of_ascii a).
Proof.
  intros Hn. unfold ceqb. apply eq_bool_prop_intro. rewrite !Is_true_true. split; intros H.
  - apply bool_decide_eq_true in H. subst a. rewrite N_ascii_embedding by lia. apply N.eqb_refl.
  - apply N.eqb_eq in H. subst n. rewrite ascii_N_embedding. by apply bool_decide_eq_true.
Qed.

Lemma app_S a s r : append (String a s) r = String a (append s r).
Proof. reflexivity. Qed.
Lemma app_0 r : append "" r = r.
Proof. reflexivity. Qed.
Ltac Zify.zify_post_hook ::= Z.to_euclidean_division_equations.
Lemma b_true lo hi n : N.of_nat lo <= n <= N.of_nat hi -> n < 256 -> byte_in lo hi (ascii_of_N n) = true.
Proof. intros. rewrite byte_in_N by done. apply andb_true_iff. rewrite !N.leb_le. lia. Qed.
Lemma b_false lo hi n : ¬ (N.of_nat lo <= n <= N.of_nat hi) -> n < 256 -> byte_in lo hi (ascii_of_N n) = false.
Proof. intros. rewrite byte_in_N by done. apply andb_false_iff. rewrite !N.leb_gt. lia. Qed.

Lemma width1 n r : n < 128 -> rune_width (String (ascii_of_N n) r) = 1%nat.
Proof.
  intros Hn. unfold rune_width. rewrite !(b_false _ _ n) by lia. cbn.
  by destruct r as [|b [|c [|d r]]].
Qed.
Lemma width2 cp r : 128 <= cp < 2048 -> rune_width (append (encode cp) r) = 2%nat.
Proof.
  intros Hc. unfold encode. destruct (N.ltb_spec cp 128); [lia|]. destruct (N.ltb_spec cp 2048); [|lia].
  rewrite ?app_S, ?app_0. unfold rune_width, cont. rewrite (b_true 194 223), (b_true 128 191) by lia. done.
Qed.
Lemma width3 cp r : 2048 <= cp < 65536 -> scalar cp -> rune_width (append (encode cp) r) = 3%nat.
Proof.
  intros Hc Hs. unfold encode, scalar in *. destruct (N.ltb_spec cp 128); [lia|]. destruct (N.ltb_spec cp 2048); [lia|].
  destruct (N.ltb_spec cp 65536); [|lia].
  rewrite ?app_S, ?app_0. unfold rune_width, cont. rewrite (b_false 194 223) by lia. cbn [andb].
  rewrite (b_true 128 191 (128 + cp mod 64)) by lia.
  rewrite (b_true 128 191 (128 + cp / 64 mod 64)) by lia. rewrite !andb_true_r.
  destruct (decide (cp < 4096)).
  { rewrite (b_true 224 224), (b_true 160 191) by lia. done. }
  destruct (decide (cp < 53248)).
  { rewrite (b_true 225 236) by lia. by rewrite !orb_true_r. }
  destruct (decide (cp < 55296)).
  { rewrite (b_true 237 237), (b_true 128 159) by lia. by rewrite !orb_true_r. }
  rewrite (b_true 238 239) by lia. by rewrite !orb_true_r.
Qed.
Lemma width4 cp r : 65536 <= cp -> scalar cp -> rune_width (append (encode cp) r) = 4%nat.
Proof.
  intros Hc Hs. unfold encode, scalar in *. destruct (N.ltb_spec cp 128); [lia|]. destruct (N.ltb_spec cp 2048); [lia|].
  destruct (N.ltb_spec cp 65536); [lia|].
  rewrite ?app_S, ?app_0. unfold rune_width, cont. rewrite (b_false 194 223) by lia. cbn [andb].
  rewrite (b_false 224 224), (b_false 225 236), (b_false 237 237), (b_false 238 239) by lia. cbn [andb orb].
  rewrite (b_true 128 191 (128 + cp mod 64)) by lia.
  rewrite (b_true 128 191 (128 + cp / 64 mod 64)) by lia.
  rewrite (b_true 128 191 (128 + cp / 4096 mod 64)) by lia. rewrite !andb_true_r.
  destruct (decide (cp < 262144)).
  { rewrite (b_true 240 240), (b_true 144 191) by lia. done. }
  destruct (decide (cp < 1048576)).
  { rewrite (b_true 241 243) by lia. by rewrite !orb_true_r. }
  rewrite (b_true 244 244), (b_true 128 143) by lia. by rewrite !orb_true_r.
Qed.

Lemma alnum_N n : n < 256 -> alnum (ascii_of_N n) = letter n || digit n.
Proof.
  intros Hn. unfold alnum, letter, digit. rewrite !byte_in_N by done. cbn -[N.leb].
  by destruct (48 <=? n), (n <=? 57), (65 <=? n), (n <=? 90), (97 <=? n), (n <=? 122).
Qed.
Definition out (first : bool) (cp : N) : N := if letter cp || (negb first && digit cp) then cp else 95.

Lemma sanitize_step first cp r : scalar cp ->
  sanitize_from first 0 (append (encode cp) r) = String (ascii_of_N (out first cp)) (sanitize_from false 0 r).
Proof.
  intros Hs. destruct (decide (cp < 128)) as [H|H].
  - unfold encode. destruct (N.ltb_spec cp 128); [|lia]. rewrite ?app_S, ?app_0.
    cbn [sanitize_from]. rewrite width1 by done. cbn [Nat.sub].
    rewrite alnum_N by lia. unfold range_A_z. rewrite byte_in_N by lia. rewrite ceqb_N by lia. change (N_of_ascii "_") with 95. unfold out, letter, digit.
    cbn -[N.leb N.eqb ascii_of_N sanitize_from].
    destruct (N.leb_spec 65 cp), (N.leb_spec cp 122), (N.leb_spec cp 90), (N.leb_spec 97 cp), (N.leb_spec 48 cp), (N.leb_spec cp 57),
      (N.eqb_spec cp 95), first; cbn [andb orb negb]; try lia; try reflexivity.
  - assert (Ho : out first cp = 95).
    { unfold out, letter, digit. destruct (N.leb_spec 65 cp), (N.leb_spec cp 122), (N.leb_spec cp 90), (N.leb_spec 97 cp), (N.leb_spec 48 cp), (N.leb_spec cp 57), first; cbn; try lia; done. }
    rewrite Ho. destruct (decide (cp < 2048)).
    { pose proof (width2 cp r ltac:(lia)) as Hw. unfold encode in *. destruct (N.ltb_spec cp 128); [lia|]. destruct (N.ltb_spec cp 2048); [|lia].
      rewrite ?app_S, ?app_0 in *. cbn [sanitize_from]. rewrite Hw. cbn [Nat.sub].
      rewrite alnum_N by lia. unfold letter, digit.
      rewrite (proj2 (N.leb_gt _ 90)), (proj2 (N.leb_gt _ 122)), (proj2 (N.leb_gt _ 57)) by lia. rewrite !andb_false_r. cbn [orb negb].
      rewrite orb_true_r. done. }
    destruct (decide (cp < 65536)).
    { pose proof (width3 cp r ltac:(lia) Hs) as Hw. unfold encode in *. destruct (N.ltb_spec cp 128); [lia|]. destruct (N.ltb_spec cp 2048); [lia|].
      destruct (N.ltb_spec cp 65536); [|lia].
      rewrite ?app_S, ?app_0 in *. cbn [sanitize_from]. rewrite Hw. cbn [Nat.sub].
      rewrite alnum_N by lia. unfold letter, digit.
      rewrite (proj2 (N.leb_gt _ 90)), (proj2 (N.leb_gt _ 122)), (proj2 (N.leb_gt _ 57)) by lia. rewrite !andb_false_r. cbn [orb negb].
      rewrite orb_true_r. done. }
    { pose proof (width4 cp r ltac:(lia) Hs) as Hw. unfold encode, scalar in *. destruct (N.ltb_spec cp 128); [lia|]. destruct (N.ltb_spec cp 2048); [lia|].
      destruct (N.ltb_spec cp 65536); [lia|].
      rewrite ?app_S, ?app_0 in *. cbn [sanitize_from]. rewrite Hw. cbn [Nat.sub].
      rewrite alnum_N by lia. unfold letter, digit.
      rewrite (proj2 (N.leb_gt _ 90)), (proj2 (N.leb_gt _ 122)), (proj2 (N.leb_gt _ 57)) by lia. rewrite !andb_false_r. cbn [orb negb].
      rewrite orb_true_r. done. }
Qed.

Lemma encode_out first cp : encode (out first cp) = String (ascii_of_N (out first cp)) "".
Proof.
  unfold encode. assert (out first cp < 128).
  { unfold out, letter, digit. destruct (N.leb_spec 65 cp), (N.leb_spec cp 122), (N.leb_spec cp 90), (N.leb_spec 97 cp), (N.leb_spec 48 cp), (N.leb_spec cp 57), first; cbn; lia. }
  destruct (N.ltb_spec (out first cp) 128); [done|lia].
Qed.

Lemma sanitize_text cps : Forall scalar cps -> sanitize (utf8 cps) = utf8 (underscored cps).
Proof.
  intros H. destruct cps as [|c r]; [done|]. apply Forall_cons in H as [Hc Hr]. unfold sanitize. cbn [utf8 underscored].
  rewrite sanitize_step by done.
  replace (if letter c then c else 95) with (out true c) by (unfold out; cbn; by rewrite orb_false_r).
  rewrite encode_out. rewrite ?app_S, ?app_0. f_equal. clear c Hc.
  induction Hr as [|c r Hc Hr IH]; [done|]. cbn [utf8 map]. rewrite sanitize_step by done.
  change (if letter c || digit c then c else 95) with (out false c). rewrite encode_out. rewrite ?app_S, ?app_0. by f_equal.
Qed.
