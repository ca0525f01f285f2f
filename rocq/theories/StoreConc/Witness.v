(** Concrete schedules of the concurrent store: executions that show hypotheses can be met, and
    executions that refute the general forms of C22 and C23. *)
From stdpp Require Import prelude gmap strings.
From Verif.Base Require Import GoInt Envelope.
From Verif.Store Require Import Avl GoHeap Model Spec.
From Verif.StoreConc Require Import Model Spec.
Open Scope Z_scope.

Definition env (src : string) (ts : Z) : envelope := mk_env ts src "0" ∅ ∅ (MLog "x" false).
Definition go (tid : nat) : label := LStep tid (mk_choice None 0 []).
Definition visit_key (tid : nat) (k : string) : label := LStep tid (mk_choice (Some k) 0 []).
Definition prune (tid : nat) (q : Z) : label := LStep tid (mk_choice None q []).
Definition goes (tid n : nat) : list label := replicate n (go tid).
Definition everything : query := mk_query 0 1000 None None 100 false.

(** Put(10) and Put(20) to "a" and a Get of "a", interleaved; then Put(30) with the limit 2 reached *)
Definition busy : list label :=
  [LCall (CPut (env "a" 10) "a"); LCall (CPut (env "a" 20) "a"); LCall (CGet "a" everything); LCall CMeta] ++
  goes 0 3 ++ [go 2] ++ goes 1 2 ++ [go 1; go 1; go 1] ++ [go 2; go 2] ++ goes 0 3 ++
  [LCall (CPut (env "a" 30) "a")] ++ [go 3] ++ goes 4 5 ++ [visit_key 3 "a"; go 3; go 3; go 3; go 3; go 3].

(** A Put that waits for the storage of "a" while truncation empties that storage and drops it from
    the index *)
Definition truncate_one (tid : nat) (k : string) : list label :=
  [prune tid 1; visit_key tid k; go tid; go tid; go tid; go tid; go tid; go tid; go tid; go tid].
Definition lost_write : list label :=
  [LCall (CPut (env "a" 10) "a")] ++ goes 0 6 ++
  [LCall (CPut (env "a" 20) "a")] ++ goes 1 2 ++
  [LCall CTruncate] ++ truncate_one 2 "a" ++ goes 1 3.
(** ... and the next truncation, which trusts the size counter *)
Definition heap_exhausted : list label := lost_write ++ [LCall CTruncate; prune 3 1; go 3; go 3].

(** Truncation meets the storage of "b", which a Put has just created and not filled yet *)
Definition empty_storage : list label :=
  [LCall (CPut (env "a" 10) "a")] ++ goes 0 6 ++
  [LCall (CPut (env "b" 20) "b")] ++ goes 1 3 ++
  [LCall CTruncate; prune 2 1; visit_key 2 "b"; go 2].

(** Meta has listed "a"; before it comes back for the size, truncation drops "a" *)
Definition meta_race : list label :=
  [LCall (CPut (env "a" 10) "a")] ++ goes 0 6 ++
  [LCall CMeta; go 1; visit_key 1 "a"; go 1; go 1] ++
  [LCall CTruncate] ++ truncate_one 2 "a" ++ [go 1].


(** A truncation that drops "b" and takes one envelope of "a", while a Put to "a" and a Get of "a" run *)
Definition tidy : list label :=
  [LCall (CPut (env "a" 10) "a")] ++ goes 0 6 ++ [LCall (CPut (env "a" 20) "a")] ++ goes 1 5 ++
  [LCall (CPut (env "b" 5) "b")] ++ goes 2 6 ++
  [LCall CTruncate; prune 3 2; visit_key 3 "b"; LCall (CPut (env "a" 30) "a"); go 4; go 4; go 3; LCall (CGet "a" everything);
   visit_key 3 "a"; go 5; go 3; go 4; go 4; go 3; go 3; go 3; go 3; go 3; go 4; go 5; go 5; go 3; go 3] ++ goes 3 4 ++
  [LCall CMeta; go 6; visit_key 6 "a"; go 6; go 6; go 6; go 6; go 6].
(** Checking that a schedule is orderly *)
Definition puts_known (c : config) : bool :=
  forallb (fun th => match th with
    | PInit _ s | PMiss _ s | PWait _ s _ | PIn _ s _ | PRoom _ s _ => match visible_to c s with [] => false | _ => true end
    | _ => true end) (cf_threads c).
Definition orderlyb (c : config) : bool :=
  let n := length (filter (fun th => working th = true) (cf_threads c)) in
  (n =? 0)%nat ||
  (n =? 1)%nat && puts_known c &&
  (negb (existsb dropping (cf_threads c)) || negb (existsb reporting (cf_threads c))).
Fixpoint orderly_check (c : config) (ls : list label) : bool :=
  orderlyb c && match ls with [] => true | l :: ls' => match cstep c l with Some c' => orderly_check c' ls' | None => true end end.

Lemma filter_one {A} (f : A -> bool) (l : list A) : length (filter (fun x => f x = true) l) = 1%nat ->
  ∀ i j x y, l !! i = Some x -> l !! j = Some y -> f x = true -> f y = true -> i = j.
Proof.
  induction l as [|z l IH]; [done|]. intros H i j x y Hi Hj Hx Hy. rewrite filter_cons in H. destruct (decide (f z = true)) as [Hz|Hz].
  - cbn [length] in H. assert (Hno : ∀ k w, l !! k = Some w -> f w ≠ true).
    { intros k w Hk Hw. apply elem_of_list_lookup_2 in Hk.
      assert (Hin : w ∈ filter (fun x => f x = true) l) by (by apply elem_of_list_filter). destruct (filter _ l); [by inversion Hin|done]. }
    destruct i, j; cbn in *; try done; exfalso; naive_solver.
  - destruct i as [|i]; cbn in Hi; [by injection Hi as ->|]. destruct j as [|j]; cbn in Hj; [by injection Hj as ->|]. f_equal. eauto.
Qed.
Lemma orderlyb_ok c : orderlyb c = true -> orderly c.
Proof.
  unfold orderlyb. intros H tid th Ht Hw.
  assert (Hin : th ∈ filter (fun th => working th = true) (cf_threads c)).
  { apply elem_of_list_filter. split; [done|]. by eapply elem_of_list_lookup_2. }
  apply orb_prop in H as [H|H].
  { apply Nat.eqb_eq, nil_length_inv in H. rewrite H in Hin. by inversion Hin. }
  apply andb_prop in H as [H H3]. apply andb_prop in H as [H1 H2]. apply Nat.eqb_eq in H1. split; [|split].
  - intros src th2 H4 Hp. unfold puts_known in H2. rewrite forallb_forall in H2. apply elem_of_list_In, H2 in H4.
    destruct th2; try discriminate Hp; cbn in Hp; apply bool_decide_eq_true in Hp as ->; by destruct (visible_to c src).
  - intros tid2 th2 H4 Hw2. by eapply (filter_one working).
  - intros Hd th2 H4. apply orb_prop in H3 as [H3|H3]; apply negb_true_iff in H3.
    + assert (existsb dropping (cf_threads c) = true); [|congruence]. apply existsb_exists. exists th. split; [|done].
      apply elem_of_list_In. by eapply elem_of_list_lookup_2.
    + destruct (reporting th2) eqn:E; [|done]. assert (existsb reporting (cf_threads c) = true); [|congruence].
      apply existsb_exists. exists th2. split; [by apply elem_of_list_In|done].
Qed.
Lemma orderly_check_ok m ls : orderly_check (initial m) ls = true -> orderly_run m ls.
Proof.
  unfold orderly_run. generalize (initial m) as c0. induction ls as [|l ls IH]; intros c0 H l1 l2 c E Hc.
  - destruct l1; [|done]. injection Hc as <-. cbn in H. rewrite andb_true_r in H. by apply orderlyb_ok.
  - cbn [orderly_check] in H. apply andb_prop in H as [H1 H2]. destruct l1 as [|l' l1].
    + injection Hc as <-. by apply orderlyb_ok.
    + injection E as <- E. cbn [crun] in Hc. apply bind_Some in Hc as (c1 & Hs & Hc). rewrite Hs in H2. eauto.
Qed.
