(** Any number of goroutines in Send at once, and one after the other. *)
From stdpp Require Import prelude gmap.
From Coq Require Import NArith.
From Verif.Nozzle Require Import Spec Model Proofs.

Section Race.
Context {E : Type}.
Implicit Types (ps : list (producer E)) (d : diode E).

Lemma rrun_app n (s : racy E) is js : rrun n s (is ++ js) = (s' ← rrun n s is; rrun n s' js).
Proof. revert s. induction is as [|i is IH]; intros s; [done|]. cbn [app rrun]. destruct (rstep n s i) as [s'|]; [apply IH|done]. Qed.

(** One call from its start to its end *)
Lemma serial n (s : racy E) i x todo : y_prods s !! i = Some (PIdle (x :: todo)) ->
  rrun n s [i; i; i] = Some (Racy (diode_set n (y_ring s) x) (<[i := PIdle todo]> (y_prods s))).
Proof.
  destruct s as [d ps]. cbn [y_prods y_ring]. intros H. pose proof (lookup_lt_Some _ _ _ H) as Hl.
  assert (E1 : rstep n (Racy d ps) i = Some (Racy d (<[i := PRead x (d_w d) todo]> ps))) by (unfold rstep; cbn [y_prods y_ring]; by rewrite H).
  assert (E2 : rstep n (Racy d (<[i := PRead x (d_w d) todo]> ps)) i = Some (Racy (Diode (d_buf d) (d_w d + 1)%N (d_r d)) (<[i := PInc x (d_w d) todo]> ps)))
    by (unfold rstep; cbn [y_prods y_ring]; rewrite list_lookup_insert by done; by rewrite list_insert_insert).
  assert (E3 : rstep n (Racy (Diode (d_buf d) (d_w d + 1)%N (d_r d)) (<[i := PInc x (d_w d) todo]> ps)) i = Some (Racy (diode_set n d x) (<[i := PIdle todo]> ps)))
    by (unfold rstep; cbn [y_prods y_ring]; rewrite list_lookup_insert by done; by rewrite list_insert_insert).
  cbn [rrun]. rewrite E1. cbn [mbind option_bind]. rewrite E2. cbn [mbind option_bind]. by rewrite E3.
Qed.

(** The three phases of calls that all begin before one has moved the index *)
Lemma phase1 n d ps (xs : list E) : rrun n (Racy d (ps ++ ((fun x => PIdle [x]) <$> xs))) (seq (length ps) (length xs)) =
  Some (Racy d (ps ++ ((fun x => PRead x (d_w d) []) <$> xs))).
Proof.
  revert ps. induction xs as [|x xs IH]; intros ps; [done|]. cbn [length seq rrun fmap list_fmap].
  unfold rstep. cbn [y_prods y_ring]. rewrite list_lookup_middle by done. cbn [mbind option_bind].
  rewrite insert_app_r_alt, Nat.sub_diag by done. cbn [insert list_insert].
  specialize (IH (ps ++ [PRead x (d_w d) []])). rewrite app_length, Nat.add_1_r, <- !(assoc_L (++)) in IH. exact IH.
Qed.
Lemma phase2 n d ps xs w : xs <> [] -> rrun n (Racy d (ps ++ ((fun x => PRead x w []) <$> xs))) (seq (length ps) (length xs)) =
  Some (Racy (Diode (d_buf d) (w + 1)%N (d_r d)) (ps ++ ((fun x => PInc x w []) <$> xs))).
Proof.
  revert ps d. induction xs as [|x xs IH]; intros ps d Hne; [done|]. cbn [length seq rrun fmap list_fmap].
  unfold rstep. cbn [y_prods y_ring]. rewrite list_lookup_middle by done. cbn [mbind option_bind].
  rewrite insert_app_r_alt, Nat.sub_diag by done. cbn [insert list_insert]. destruct xs as [|y xs]; [done|].
  specialize (IH (ps ++ [PInc x w []]) (Diode (d_buf d) (w + 1)%N (d_r d)) ltac:(done)). rewrite app_length, Nat.add_1_r, <- !(assoc_L (++)) in IH. exact IH.
Qed.
Lemma phase3 n d ps xs x w : rrun n (Racy d (ps ++ ((fun x => PInc x w []) <$> (xs ++ [x])))) (seq (length ps) (length (xs ++ [x]))) =
  Some (Racy (Diode (<[(w `mod` n)%N := (w, x)]> (d_buf d)) (d_w d) (d_r d)) (ps ++ ((fun _ => PIdle []) <$> (xs ++ [x])))).
Proof.
  revert ps d. induction xs as [|y xs IH]; intros ps d; cbn [app length seq rrun fmap list_fmap];
  unfold rstep; cbn [y_prods y_ring]; rewrite list_lookup_middle by done; cbn [mbind option_bind]; rewrite insert_app_r_alt, Nat.sub_diag by done; cbn [insert list_insert]; [done|].
  specialize (IH (ps ++ [PIdle []]) (Diode (<[(w `mod` n)%N := (w, y)]> (d_buf d)) (d_w d) (d_r d))). rewrite app_length, Nat.add_1_r, <- !(assoc_L (++)) in IH.
  cbn [app] in IH. rewrite IH. cbn [d_buf d_w d_r]. by rewrite insert_insert.
Qed.
Lemma all_at_once n (xs : list E) x : let k := length (xs ++ [x]) in
  rrun n (Racy diode_new ((fun x => PIdle [x]) <$> (xs ++ [x]))) (seq 0 k ++ seq 0 k ++ seq 0 k) =
  Some (Racy (diode_set n diode_new x) (replicate k (PIdle []))).
Proof.
  cbv zeta. rewrite rrun_app. pose proof (phase1 n diode_new [] (xs ++ [x])) as E1. cbn [app length] in E1. rewrite E1. cbn [mbind option_bind].
  rewrite rrun_app. pose proof (phase2 n diode_new [] (xs ++ [x]) (d_w (@diode_new E)) ltac:(by destruct xs)) as E2. cbn [app length] in E2. rewrite E2. cbn [mbind option_bind].
  pose proof (phase3 n (Diode (d_buf diode_new) (d_w (@diode_new E) + 1)%N (d_r (@diode_new E))) [] xs x (d_w (@diode_new E))) as E3. cbn [app length] in E3. rewrite E3. f_equal. f_equal.
  clear. induction (xs ++ [x]) as [|y l IH]; [done|]. cbn. by rewrite IH.
Qed.

(** What the consumer finds after that *)
Lemma one_left n (x : E) m : (0 < n)%N -> (diode_run n (diode_set n diode_new x) (replicate (S m) Next)).2 = [Got x].
Proof.
  intros Hn. assert (H0 : (0 `mod` n)%N = 0%N) by (by apply N.mod_0_l; lia).
  assert (Ht : diode_try n (diode_set n diode_new x) = (Diode (delete 0%N (d_buf (diode_set n diode_new x))) 1 1, Some x, None)).
  { unfold diode_try, diode_set, diode_new. cbn [d_buf d_w d_r]. rewrite H0, lookup_insert. done. }
  cbn [replicate diode_run]. rewrite Ht. rewrite run_empty; [done|]. cbn [d_buf d_r diode_set diode_new d_w]. rewrite H0, delete_insert by done. apply lookup_empty.
Qed.
(** Calls one after the other: [turns] says who calls, and each puts the next of what it has *)
Inductive taken : list (producer E) -> list nat -> list E -> list (producer E) -> Prop :=
| taken_none ps : taken ps [] [] ps
| taken_one ps i x todo turns xs ps' : ps !! i = Some (PIdle (x :: todo)) -> taken (<[i := PIdle todo]> ps) turns xs ps' -> taken ps (i :: turns) (x :: xs) ps'.
Definition whole_calls (turns : list nat) : list nat := concat ((fun i => [i; i; i]) <$> turns).
Lemma serial_run n d ps turns xs ps' : taken ps turns xs ps' ->
  exists d', rrun n (Racy d ps) (whole_calls turns) = Some (Racy d' ps') /\ diode_run n d (Put <$> xs) = (d', []).
Proof.
  intros H. revert d. induction H as [ps|ps i x todo turns xs ps' Hi _ IH]; intros d; [by exists d|].
  destruct (IH (diode_set n d x)) as (d' & E1 & E2). exists d'. split; [|exact E2].
  unfold whole_calls. cbn [fmap list_fmap concat]. rewrite rrun_app, (serial n (Racy d ps) i x todo Hi). cbn [mbind option_bind y_prods y_ring]. exact E1.
Qed.
End Race.
