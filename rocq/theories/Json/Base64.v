(** encode64 writes RFC 4648's text. *)
From Coq Require Import Ascii String.
From stdpp Require Import prelude strings list.
From Verif.Json Require Import Pb SpecBase64.
Open Scope string_scope.
Open Scope list_scope.
Open Scope nat_scope.
#[local] Arguments String.append : simpl nomatch.

Lemma sextet_ok : Forall (fun x : sextet => sextet_val x < 64 /\ alphabet !! sextet_val x = Some (char64 x) /\
    binary 6 (sextet_val x) = (let '(a, b, c, d, e, f) := x in [a; b; c; d; e; f])) sextets.
Proof.
  apply Forall_forall. apply Forall_forall. 
  assert (H : forallb (fun x : sextet => (sextet_val x <? 64) && bool_decide (alphabet !! sextet_val x = Some (char64 x)) &&
    bool_decide (binary 6 (sextet_val x) = (let '(a, b, c, d, e, f) := x in [a; b; c; d; e; f]))) sextets = true) by (by vm_compute).
  rewrite forallb_forall in H. apply Forall_forall. intros x Hx. apply elem_of_list_In in Hx. apply H in Hx.
  apply andb_true_iff in Hx as [[H1 H2]%andb_true_iff H3]. apply bool_decide_eq_true in H2, H3. apply Nat.ltb_lt in H1. done.
Qed.
Lemma in_sextets x : x ∈ sextets.
Proof. destruct x as [[[[[[] []] []] []] []] []]; apply (bool_decide_eq_true_1 (_ ∈ sextets)); by vm_compute. Qed.
Lemma sextet_fact x : sextet_val x < 64 /\ alphabet !! sextet_val x = Some (char64 x) /\
    binary 6 (sextet_val x) = (let '(a, b, c, d, e, f) := x in [a; b; c; d; e; f]).
Proof. pose proof sextet_ok as H. rewrite Forall_forall in H. apply H, in_sextets. Qed.
Lemma byte_bits a0 a1 a2 a3 a4 a5 a6 a7 : binary 8 (nat_of_ascii (Ascii a0 a1 a2 a3 a4 a5 a6 a7)) = [a7; a6; a5; a4; a3; a2; a1; a0].
Proof. destruct a0, a1, a2, a3, a4, a5, a6, a7; by vm_compute. Qed.
Lemma joined {A} (x : list A) xs : mjoin (x :: xs) = x ++ mjoin xs.
Proof. done. Qed.
#[local] Opaque binary char64 sextet_val alphabet.

Lemma encode64_rfc s : base64_text s (encode64 s).
Proof.
  revert s. fix IH 1. intros s.
  destruct s as [|[a0 a1 a2 a3 a4 a5 a6 a7] [|[b0 b1 b2 b3 b4 b5 b6 b7] [|[c0 c1 c2 c3 c4 c5 c6 c7] r]]].
  - exists [], 0, 0. cbn. repeat split; try lia; constructor.
  - exists [sextet_val (a7, a6, a5, a4, a3, a2); sextet_val (a1, a0, false, false, false, false)], 4, 2.
    destruct (sextet_fact (a7, a6, a5, a4, a3, a2)) as (H1 & H2 & H3), (sextet_fact (a1, a0, false, false, false, false)) as (G1 & G2 & G3).
    cbn [encode64]. split; [repeat (constructor; [done|]); constructor|]. split; [cbn; by rewrite H2; cbn; rewrite G2|].
    split; [cbn -[nat_of_ascii]; by rewrite H3, G3, byte_bits|]. repeat split; lia.
  - set (x := (a7, a6, a5, a4, a3, a2)). set (y := (a1, a0, b7, b6, b5, b4)). set (z := (b3, b2, b1, b0, false, false)).
    exists [sextet_val x; sextet_val y; sextet_val z], 2, 1.
    destruct (sextet_fact x) as (H1 & H2 & H3), (sextet_fact y) as (G1 & G2 & G3), (sextet_fact z) as (K1 & K2 & K3).
    cbn [encode64]. split; [repeat (constructor; [done|]); constructor|]. split; [cbn; by rewrite H2; cbn; rewrite G2; cbn; rewrite K2|].
    split; [cbn -[nat_of_ascii]; by rewrite H3, G3, K3, !byte_bits|]. repeat split; lia.
  - set (x := (a7, a6, a5, a4, a3, a2)). set (y := (a1, a0, b7, b6, b5, b4)). set (z := (b3, b2, b1, b0, c7, c6)). set (w := (c5, c4, c3, c2, c1, c0)).
    destruct (IH r) as (ds & zs & ps & I1 & I2 & I3 & I4 & I5 & I6). clear IH.
    exists (sextet_val x :: sextet_val y :: sextet_val z :: sextet_val w :: ds), zs, ps.
    destruct (sextet_fact x) as (H1 & H2 & H3), (sextet_fact y) as (G1 & G2 & G3), (sextet_fact z) as (K1 & K2 & K3), (sextet_fact w) as (L1 & L2 & L3).
    cbn [encode64]. split; [repeat (constructor; [done|]); exact I1|].
    split; [cbn [list_ascii_of_string omap list_omap]; rewrite H2, G2, K2, L2, I2; done|].
    split; [cbn [list_ascii_of_string]; rewrite !fmap_cons, !joined, H3, G3, K3, L3, !byte_bits, I3; done|].
    split; [done|]. split; [done|]. cbn [String.length]. 
    replace (S (S (S (S (String.length (encode64 r)))))) with (String.length (encode64 r) + 1 * 4) by lia. by rewrite Nat.mod_add.
Qed.

(** ** It is one text only *)
Lemma binary_length w : forall n, length (binary w n) = w.
Proof. induction w as [|w IH]; intros n; [done|]. cbn [binary]. rewrite app_length, IH. cbn. lia. Qed.
Lemma binary_inj w : forall n m, n < 2 ^ w -> m < 2 ^ w -> binary w n = binary w m -> n = m.
Proof.
  induction w as [|w IH]; intros n m Hn Hm E; [cbn in *; lia|]. cbn [binary] in E. apply app_inj_2 in E as [E1 E2]; [|done]. injection E2 as E2.
  rewrite (Nat.div2_odd n), (Nat.div2_odd m). rewrite (IH (Nat.div2 n) (Nat.div2 m)); [by rewrite E2| | |done];
    rewrite Nat.div2_div; apply Nat.div_lt_upper_bound; try lia; by rewrite <- Nat.pow_succ_r'.
Qed.
Lemma blocks_length w (ds : list nat) : length (mjoin (binary w <$> ds)) = w * length ds.
Proof. induction ds as [|d ds IH]; [cbn; lia|]. rewrite fmap_cons, joined, app_length, IH, binary_length. cbn. lia. Qed.
Lemma blocks_inj (ds ds' : list nat) : Forall (fun d => d < 64) ds -> Forall (fun d => d < 64) ds' ->
  mjoin (binary 6 <$> ds) = mjoin (binary 6 <$> ds') -> ds = ds'.
Proof.
  revert ds'. induction ds as [|d ds IH]; intros [|d' ds'] H H' E; [done| | |].
  - apply (f_equal length) in E. rewrite !blocks_length in E. cbn in E. lia.
  - apply (f_equal length) in E. rewrite !blocks_length in E. cbn in E. lia.
  - rewrite !fmap_cons, !joined in E. apply app_inj_1 in E as [E1 E2]; [|by rewrite !binary_length].
    apply Forall_cons in H as [Hd H], H' as [Hd' H']. f_equal; [by apply (binary_inj 6)|by apply IH].
Qed.
Lemma byte_length s : length (mjoin ((fun c => binary 8 (nat_of_ascii c)) <$> list_ascii_of_string s)) = 8 * String.length s.
Proof. induction s as [|c s IH]; [done|]. cbn [list_ascii_of_string]. rewrite fmap_cons, joined, app_length, IH, binary_length. cbn. lia. Qed.
Lemma chars_length ds : Forall (fun d => d < 64) ds -> length (omap (fun d => alphabet !! d) ds) = length ds.
Proof.
  induction 1 as [|d ds Hd H IH]; [done|]. cbn [omap list_omap]. destruct (alphabet !! d) eqn:E; [cbn; by f_equal|].
  apply lookup_ge_None in E. change (length alphabet) with 64 in E. lia.
Qed.
Lemma text_length t : String.length t = length (list_ascii_of_string t).
Proof. induction t as [|c t IH]; [done|]. cbn. by f_equal. Qed.
Lemma base64_one s t t' : base64_text s t -> base64_text s t' -> t = t'.
Proof.
  intros (ds & z & p & H1 & H2 & H3 & H4 & H5 & H6) (ds' & z' & p' & G1 & G2 & G3 & G4 & G5 & G6).
  assert (E : length ds = length ds' /\ z = z').
  { apply (f_equal length) in H3, G3. rewrite blocks_length, app_length, byte_length, replicate_length in H3, G3. lia. }
  destruct E as [E <-]. assert (ds = ds') as <-. { apply blocks_inj; [done|done|]. by rewrite H3, G3. }
  assert (p = p') as <-.
  { rewrite text_length, H2, app_length, replicate_length in H6. rewrite text_length, G2, app_length, replicate_length in G6.
    revert H6 G6. generalize (length (omap (fun d => alphabet !! d) ds)). intros n A B.
    pose proof (Nat.div_mod (n + p) 4). pose proof (Nat.div_mod (n + p') 4). lia. }
  rewrite <- (string_of_list_ascii_of_string t), <- (string_of_list_ascii_of_string t'). by rewrite H2, G2.
Qed.
