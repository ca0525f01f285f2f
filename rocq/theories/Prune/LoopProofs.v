From Coq Require Import String ZArith Reals Lra Lia Psatz.
From stdpp Require Import prelude list.
From Verif.Base Require Import Envelope GoInt.
From Verif.Store Require Import Model Spec ProofsFinal.
From Flocq Require Import Core BinarySingleNaN.
From Verif.Prune Require Import Model Proofs Loop.
Open Scope Z_scope.

Lemma bytes_app w a b : bytes w (a ++ b) = bytes w a + bytes w b.
Proof. induction a as [|x a IH]; [done|]. cbn [bytes app]. rewrite IH. lia. Qed.
Lemma bytes_perm w a b : Permutation a b -> bytes w a = bytes w b.
Proof. induction 1; cbn [bytes]; lia. Qed.
Lemma bytes_bounds w lo hi l : (forall x, x ∈ l -> lo <= w x <= hi) -> lo * Z.of_nat (length l) <= bytes w l <= hi * Z.of_nat (length l).
Proof.
  induction l as [|x l IH]; intros H; [cbn; lia|]. cbn [bytes length].
  assert (Hx : lo <= w x <= hi) by (apply H; left). assert (IH' := IH ltac:(intros y Hy; apply H; by right)). lia.
Qed.

Lemma uncrowded_more m ops q pri now : uncrowded m ops -> uncrowded m (ops ++ [OTruncate q pri now]).
Proof.
  intros [H|H]; [by left|right]. intros pre e src t post E.
  destruct post as [|o post'] using rev_ind.
  - apply app_inj_tail in E as [_ E]. done.
  - rewrite app_comm_cons, app_assoc in E. apply app_inj_tail in E as [E _]. by eapply H.
Qed.
Lemma run_more s ops s' o : run s ops = Some s' -> run s (ops ++ [o]) = step s' o.
Proof.
  revert s. induction ops as [|x ops IH]; intros s H; cbn in H |- *.
  - injection H as ->. by destruct (step s' o).
  - destruct (step s x) as [s1|] eqn:E; [|done]. cbn in *. by apply IH.
Qed.

Record held (m : Z) (ops : list op) (s : store) : Prop := mk_held {
  h_max : 1 <= m; h_room : uncrowded m ops; h_ok : Forall op_ok ops; h_len : Z.of_nat (length ops) < 2^63;
  h_run : run (new_store m) ops = Some s }.

Section pass.
Variables (total : Z) (pct : f64) (base lo hi : Z) (w : string * (Z * envelope) -> Z).
Hypothesis (Htotal : 1 <= total <= 2^53) (Hpct : is_finite pct = true) (Hpos : (0 <= B2R pct)%R).
Hypothesis (Hbase : 0 <= base) (Hlo : 1 <= lo <= hi).
Definition limit : R := (B2R pct * IZR total / 100)%R.

Lemma one_pass m ops s tick :
  held m ops s -> (forall x, x ∈ all_stored s -> lo <= w x <= hi) ->
  heap_of base w s * 100 <= 2^53 -> st_count s <= 2^50 ->
  exists s', pass base total pct w tick s = Some s' /\
  (exists q, run (new_store m) (ops ++ [OTruncate q tick.1 tick.2]) = Some s') /\
  (exists removed, Permutation (all_stored s) (removed ++ all_stored s') /\
     (forall x y, x ∈ removed -> y ∈ all_stored s' -> x.2.1 <= y.2.1)) /\
  ((IZR (heap_of base w s) <= limit)%R -> s' = s) /\
  ((limit < IZR (heap_of base w s))%R ->
   (let H := IZR (heap_of base w s) in let W := IZR (bytes w (all_stored s)) in
    H - limit - IZR hi * (W / IZR lo * (H - limit) / H + 2) <= IZR (heap_of base w s') - limit
    <= H - limit - IZR lo * (W / IZR hi * (H - limit) / H - 2))%R).
Proof.
  intros [Hm Hroom Hok Hlen Hrun] Hw Hheap Hcnt. set (h := heap_of base w s) in *.
  pose proof (bytes_bounds w lo hi _ Hw) as HW.
  assert (Hc : st_count s = Z.of_nat (length (all_stored s))) by (by eapply size_exact in Hrun as [_ ?]).
  assert (Hh0 : 0 <= h) by (unfold h, heap_of; nia).
  assert (Ht : (0 < IZR total)%R) by (apply IZR_lt; lia).
  destruct (Rle_or_lt (IZR h) limit) as [Hle|Hgt].
  - assert (Hq : quantity_to_prune h total pct (st_count s) = Some 0).
    { apply quantity_zero; [done|lia|done|done|]. rewrite mult_IZR. unfold limit in Hle. apply Rmult_le_reg_r with (IZR total); [done|].
      unfold Rdiv. rewrite Rmult_assoc, Rinv_l by lra. lra. }
    exists s. unfold pass. fold h. rewrite Hq. split; [done|]. split.
    { exists 0. rewrite (run_more _ _ _ _ Hrun). done. }
    split; [exists []; split; [done|]; intros x y Hx; by apply elem_of_nil in Hx|]. split; [done|]. intros Hgt. lra.
  - destruct (quantity_accurate h total pct (st_count s)) as (q & Hq & Hacc); [done|lia|done|done|done|lia| |].
    { rewrite mult_IZR. unfold limit in Hgt. apply Rmult_lt_reg_r with (IZR total); [done|]. unfold Rdiv. rewrite (Rmult_assoc (100 * IZR h)), Rinv_l by lra. lra. }
    destruct (truncation m ops s q tick.1 tick.2 Hm Hroom Hok Hlen Hrun) as (s' & removed & Et & Hp & Hl & Hold & _).
    exists s'. unfold pass. fold h. rewrite Hq. split; [done|]. split; [exists q; rewrite (run_more _ _ _ _ Hrun); done|].
    split; [by exists removed|]. split; [lra|]. intros _.
    assert (L0 : (0 <= limit)%R) by (unfold limit; apply Rmult_le_pos; [apply Rmult_le_pos; lra|lra]).
    assert (Eexc : ((IZR (100 * h) / IZR total - B2R pct) / (IZR (100 * h) / IZR total) = (IZR h - limit) / IZR h)%R).
    { rewrite mult_IZR. unfold limit. field. split; lra. }
    rewrite Eexc in Hacc. clear Eexc. apply Rabs_lt_inv in Hacc.
    set (H := IZR h) in *. set (E := (H - limit)%R) in *.
    assert (HH : (0 < H)%R) by lra. assert (HE : (0 < E <= H)%R) by (unfold E; lra).
    set (n := Z.of_nat (length removed)) in *. set (c := Z.of_nat (length (all_stored s))) in *. rewrite Hc in Hacc.
    assert (Hc0 : (0 <= IZR c)%R) by (apply IZR_le; lia).
    set (x := (E / H)%R) in *. assert (Hx : (0 <= x <= 1)%R).
    { unfold x. split; [apply Rlt_le, Rdiv_lt_0_compat; lra|]. apply Rmult_le_reg_r with H; [lra|]. unfold Rdiv. rewrite Rmult_assoc, Rinv_l by lra. lra. }
    assert (Hcx : (0 <= IZR c * x <= IZR c)%R) by (split; nra).
    assert (Hn : (IZR c * x - 2 <= IZR n <= IZR c * x + 2)%R).
    { assert (Hn' : n = Z.max 0 (Z.min q c)) by exact Hl. assert (0 <= c) by (unfold c; lia).
      destruct (Z_le_gt_dec q 0) as [A|A].
      - assert (n = 0) as -> by lia. apply IZR_le in A. lra.
      - destruct (Z_le_gt_dec q c) as [B|B]; [assert (n = q) as -> by lia; lra|]. assert (n = c) as -> by lia.
        assert (B' : (IZR c < IZR q)%R) by (apply IZR_lt; lia). lra. }
    assert (Hb : bytes w (all_stored s) = bytes w removed + bytes w (all_stored s')) by (rewrite <-bytes_app; by apply bytes_perm).
    assert (Hr : lo * n <= bytes w removed <= hi * n).
    { apply bytes_bounds. intros y Hy. apply Hw. rewrite Hp. apply elem_of_app. by left. }
    destruct Hr as [Hr1 Hr2]. apply IZR_le in Hr1, Hr2. rewrite mult_IZR in Hr1, Hr2.
    destruct HW as [HW1 HW2]. apply IZR_le in HW1, HW2. rewrite mult_IZR in HW1, HW2. fold c in HW1, HW2.
    assert (Eh : (IZR (heap_of base w s') = H - IZR (bytes w removed))%R).
    { unfold H, h, heap_of. rewrite Hb, !plus_IZR. lra. }
    assert (Hlo' : (1 <= IZR lo <= IZR hi)%R) by (split; apply IZR_le; lia).
    cbn zeta. rewrite Eh. fold E. set (W := IZR (bytes w (all_stored s))) in *. set (B := IZR (bytes w removed)) in *.
    assert (Hw1 : (IZR c <= W / IZR lo)%R).
    { apply Rmult_le_reg_r with (IZR lo); [lra|]. unfold Rdiv. rewrite Rmult_assoc, Rinv_l by lra. lra. }
    assert (Hw2 : (W / IZR hi <= IZR c)%R).
    { apply Rmult_le_reg_r with (IZR hi); [lra|]. unfold Rdiv. rewrite Rmult_assoc, Rinv_l by lra. lra. }
    assert (Ex1 : (W / IZR lo * E / H = W / IZR lo * x)%R) by (unfold x; field; lra).
    assert (Ex2 : (W / IZR hi * E / H = W / IZR hi * x)%R) by (unfold x; field; lra).
    rewrite Ex1, Ex2. set (W1 := (W / IZR lo)%R) in *. set (W2 := (W / IZR hi)%R) in *.
    assert (G1 : (IZR c * x <= W1 * x)%R) by (apply Rmult_le_compat_r; lra).
    assert (G2 : (W2 * x <= IZR c * x)%R) by (apply Rmult_le_compat_r; lra).
    assert (G3 : (IZR lo * (W2 * x - 2) <= IZR lo * IZR n)%R) by (apply Rmult_le_compat_l; lra).
    assert (G4 : (IZR hi * IZR n <= IZR hi * (W1 * x + 2))%R) by (apply Rmult_le_compat_l; lra).
    replace (H - B - limit)%R with (E - B)%R by (unfold E; lra). lra.
Qed.

Lemma shrink (e H L W b l h e' : R) : (0 < e -> 1 <= l <= h -> e = H - L -> H = b + W -> 2 * b <= L -> 0 <= b ->
  e' <= e - l * (W / h * e / H - 2) -> e' - 4 * h <= (1 - l / (2 * h)) * (e - 4 * h))%R.
Proof.
  intros He Hl Ee EH Hb Hb0 H'. assert (HH : (0 < H)%R) by lra.
  assert (Hx : (1 / 2 <= W / H)%R) by (apply Rmult_le_reg_r with H; [lra|]; unfold Rdiv; rewrite !Rmult_assoc, Rinv_l by lra; lra).
  assert (E1 : (l * (W / h * e / H - 2) = (l / h * e) * (W / H) - 2 * l)%R) by (field; lra). rewrite E1 in H'.
  assert (P : (0 <= l / h * e)%R) by (apply Rmult_le_pos; [apply Rmult_le_pos; [lra|apply Rlt_le, Rinv_0_lt_compat; lra]|lra]).
  assert (G : ((l / h * e) * (1 / 2) <= (l / h * e) * (W / H))%R) by (by apply Rmult_le_compat_l).
  assert (E2 : ((1 - l / (2 * h)) * (e - 4 * h) = e - (l / h * e) * (1 / 2) - 4 * h + 2 * l)%R) by (field; lra). lra.
Qed.

Lemma many ticks : forall m ops s,
  held m ops s -> Z.of_nat (length ops + length ticks) < 2^63 -> (forall x, x ∈ all_stored s -> lo <= w x <= hi) ->
  heap_of base w s * 100 <= 2^53 -> st_count s <= 2^50 -> (2 * IZR base <= limit)%R ->
  exists s', passes base total pct w ticks s = Some s' /\
  (exists removed, Permutation (all_stored s) (removed ++ all_stored s') /\
     (forall x y, x ∈ removed -> y ∈ all_stored s' -> x.2.1 <= y.2.1)) /\
  (IZR (heap_of base w s') - limit <=
   (1 - IZR lo / (2 * IZR hi)) ^ length ticks * Rmax 0 (IZR (heap_of base w s) - limit - 4 * IZR hi) + 4 * IZR hi)%R.
Proof.
  assert (Hlo' : (1 <= IZR lo <= IZR hi)%R) by (split; apply IZR_le; lia).
  set (r := (1 - IZR lo / (2 * IZR hi))%R).
  assert (Hr : (0 <= r)%R).
  { unfold r. assert (IZR lo / (2 * IZR hi) <= 1)%R; [|lra]. apply Rmult_le_reg_r with (2 * IZR hi)%R; [lra|].
    unfold Rdiv. rewrite Rmult_assoc, Rinv_l by lra. lra. }
  induction ticks as [|tick ticks IH]; intros m ops s Hheld Hlen Hw Hheap Hcnt Hb.
  { exists s. split; [done|]. split; [exists []; split; [done|]; intros x y Hx; by apply elem_of_nil in Hx|]. cbn.
    pose proof (Rmax_r 0 (IZR (heap_of base w s) - limit - 4 * IZR hi)). lra. }
  destruct (one_pass m ops s tick Hheld Hw Hheap Hcnt) as (s1 & Ep & (q & Hq) & (rem & Hperm & Hold) & Hsame & Hmore).
  pose proof (h_run _ _ _ Hheld) as Hrun.
  assert (Hheld1 : held m (ops ++ [OTruncate q tick.1 tick.2]) s1).
  { destruct Hheld. constructor; [done|by apply uncrowded_more|apply Forall_app; split; [done|by repeat constructor]|rewrite app_length; cbn [length] in *; lia|done]. }
  assert (Hw1 : forall x, x ∈ all_stored s1 -> lo <= w x <= hi).
  { intros x Hx. apply Hw. rewrite Hperm. apply elem_of_app. by right. }
  assert (Hby : bytes w (all_stored s1) <= bytes w (all_stored s)).
  { rewrite (bytes_perm _ _ _ Hperm), bytes_app. enough (0 <= bytes w rem) by lia.
    assert (B : lo * Z.of_nat (length rem) <= bytes w rem); [|nia]. apply (bytes_bounds w lo hi). intros x Hx. apply Hw. rewrite Hperm. apply elem_of_app. by left. }
  assert (Hc1 : st_count s1 <= st_count s).
  { destruct Hheld as [A1 A2 A3 A4 A5], Hheld1 as [B1 B2 B3 B4 B5]. apply size_exact in A5 as [_ ->]; [|done..]. apply size_exact in B5 as [_ ->]; [|done..].
    rewrite (Permutation_length Hperm), app_length. lia. }
  destruct (IH m _ s1 Hheld1) as (s2 & E2 & (rem2 & Hperm2 & Hold2) & Hbound); [|done|unfold heap_of in *; lia|lia|done|].
  { rewrite app_length. cbn [length] in *. lia. }
  exists s2. cbn [passes]. rewrite Ep. split; [done|]. split.
  { exists (rem ++ rem2). split; [by rewrite <-app_assoc, <-Hperm2|]. intros x y Hx Hy. apply elem_of_app in Hx as [Hx|Hx]; [|by apply Hold2].
    apply Hold; [done|]. rewrite Hperm2. apply elem_of_app. by right. }
  eapply Rle_trans; [exact Hbound|]. apply Rplus_le_compat_r. cbn [length]. rewrite <-tech_pow_Rmult, (Rmult_comm r), Rmult_assoc.
  apply Rmult_le_compat_l; [by apply pow_le|].
  set (e := (IZR (heap_of base w s) - limit)%R) in *. set (e1 := (IZR (heap_of base w s1) - limit)%R) in *.
  apply Rmax_lub; [apply Rmult_le_pos; [done|apply Rmax_l]|].
  destruct (Rle_or_lt (IZR (heap_of base w s)) limit) as [Hle|Hgt].
  - apply Rle_trans with 0%R; [unfold e1; rewrite (Hsame Hle); lra|]. apply Rmult_le_pos; [done|apply Rmax_l].
  - specialize (Hmore Hgt). cbn zeta in Hmore. destruct Hmore as [_ Hup].
    apply Rle_trans with (r * (e - 4 * IZR hi))%R; [|apply Rmult_le_compat_l; [done|apply Rmax_r]].
    apply (shrink e (IZR (heap_of base w s)) limit (IZR (bytes w (all_stored s))) (IZR base) (IZR lo) (IZR hi) e1); try done.
    + unfold e. lra.
    + unfold heap_of. by rewrite plus_IZR.
    + by apply IZR_le.
Qed.
End pass.
