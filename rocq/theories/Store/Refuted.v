(** Counterexamples to the general forms, by evaluation of the model. *)
From stdpp Require Import prelude gmap strings.
From Coq Require Import ZifyBool ZifyNat.
From Verif.Base Require Import GoInt Envelope.
From Verif.Store Require Import Avl AvlProofs GoHeap Model Spec Witness.
Open Scope Z_scope.

Lemma crowd_ok : Forall op_ok (crowd ++ [putB 0]).
Proof.
  unfold crowd. rewrite <-app_assoc. apply Forall_app. split; [|by repeat constructor].
  apply Forall_fmap, Forall_true. intros x. exact I.
Qed.

Lemma write_destroys :
  ∃ m ops s e src now s' x,
    run (new_store m) ops = Some s ∧ Z.of_nat (length (stored s src)) < m ∧
    put_env e src now s = Some s' ∧ x ∈ stored s src ∧ x ∉ stored s' src.
Proof.
  assert (H : (match run (new_store 100000) crowd with
     | Some s => match put_env (log_at 0 "1") "a" 100 s with
       | Some s' => (Z.of_nat (length (stored s "a")) <? 100000) &&
            bool_decide ((4000, log_at 0 "0") ∈ stored s "a") && bool_decide ((4000, log_at 0 "0") ∉ stored s' "a")
       | None => false end | None => false end) = true) by (vm_compute; reflexivity).
  apply opt_witness in H as (s & Hs & H). apply opt_witness in H as (s' & Hs' & H).
  rewrite !andb_true_iff, !bool_decide_eq_true in H. destruct H as [[H1 H2] H3].
  exists 100000, crowd, s, (log_at 0 "1"), "a"%string, 100, s', (4000, log_at 0 "0").
  split; [exact Hs|]. split; [clear -H1; lia|]. exact (conj Hs' (conj H2 H3)).
Qed.

Lemma size_drifts :
  ∃ m ops s, 1 <= m ∧ Forall op_ok ops ∧ run (new_store m) ops = Some s ∧
    st_size s ≠ Z.of_nat (length (all_stored s)).
Proof.
  assert (H : (match run (new_store 100000) (crowd ++ [putB 0]) with
     | Some s => negb (st_size s =? Z.of_nat (length (all_stored s)))
     | None => false end) = true) by (vm_compute; reflexivity).
  apply opt_witness in H as (s & Hs & H).
  exists 100000, (crowd ++ [putB 0]), s. split; [clear; lia|]. split.
  - exact crowd_ok.
  - split; [exact Hs|]. clear -H. lia.
Qed.

Lemma truncate_panics :
  ∃ m ops, 1 <= m ∧ Forall op_ok ops ∧ run (new_store m) ops = None.
Proof.
  exists 100000, ((crowd ++ [putB 0]) ++ [OTruncate 4002 [] 100]). split; [lia|]. split.
  - apply Forall_app. split; [exact crowd_ok|]. by repeat constructor.
  - vm_compute. reflexivity.
Qed.

Lemma zero_limit_panics e src now : put_env e src now (new_store 0) = None.
Proof. reflexivity. Qed.

Lemma unknown_type_panics :
  ∃ m ops s src q, 1 <= m ∧ run (new_store m) ops = Some s ∧ get_env src q s = None.
Proof.
  assert (H : (match run (new_store 100) [putA 1] with
     | Some s => bool_decide (get_env "a" (mk_query 0 10 (Some [T_UNKNOWN 9]) None 1 false) s = None)
     | None => false end) = true) by (vm_compute; reflexivity).
  apply opt_witness in H as (s & Hs & H). rewrite bool_decide_eq_true in H.
  eexists 100, [putA 1], s, "a"%string, _. split; [clear; lia|]. split; [exact Hs|exact H].
Qed.

Lemma get_misses :
  ∃ m ops s src q res k e,
    1 <= m ∧ uncrowded m ops ∧ run (new_store m) ops = Some s ∧
    q_types q = None ∧ q_name q = None ∧ q_desc q = false ∧
    Z.of_nat (length (stored s src)) < q_limit q ∧
    get_env src q s = Some res ∧
    (k, e) ∈ stored s src ∧ q_start q <= e_ts e < q_end q ∧ e ∉ res.
Proof.
  set (q := window 7 100 50).
  assert (H : (match run (new_store 100) overlap with
     | Some s => match get_env "a" q s with
       | Some res => (Z.of_nat (length (stored s "a")) <? 50) &&
            bool_decide ((9, log_at 7 "0") ∈ stored s "a") && bool_decide (log_at 7 "0" ∉ res)
       | None => false end | None => false end) = true) by (vm_compute; reflexivity).
  apply opt_witness in H as (s & Hs & H). apply opt_witness in H as (res & Hr & H).
  rewrite !andb_true_iff, !bool_decide_eq_true in H. destruct H as [[H1 H2] H3].
  exists 100, overlap, s, "a"%string, q, res, 9, (log_at 7 "0").
  split; [clear; lia|]. split; [clear; left; lia|]. split; [exact Hs|]. do 3 (split; [reflexivity|]).
  split; [clear -H1; simpl; lia|]. split; [exact Hr|]. split; [exact H2|]. split; [clear; simpl; lia|exact H3].
Qed.

Lemma limit_splits_group :
  ∃ m ops s src q res e' k e,
    1 <= m ∧ uncrowded m ops ∧ run (new_store m) ops = Some s ∧
    time_sorted (stored s src).*2 ∧
    q_types q = None ∧ q_name q = None ∧ q_desc q = false ∧
    get_env src q s = Some res ∧ last res = Some e' ∧
    (k, e) ∈ stored s src ∧ q_start q <= e_ts e < q_end q ∧ e_ts e = e_ts e' ∧ e ∉ res.
Proof.
  set (q := window 0 100 1).
  assert (H : (match run (new_store 100) [putA 1; putB 1; putB 1; putA 2; putA 3] with
     | Some s => match get_env "a" q s with
       | Some res => bool_decide ((2, log_at 1 "1") ∈ stored s "a") && bool_decide (log_at 1 "1" ∉ res) &&
            bool_decide (last res = Some (log_at 1 "0")) &&
            bool_decide ((stored s "a").*2 = [log_at 1 "0"; log_at 1 "1"; log_at 1 "1"; log_at 2 "0"; log_at 3 "0"])
       | None => false end | None => false end) = true) by (vm_compute; reflexivity).
  apply opt_witness in H as (s & Hs & H). apply opt_witness in H as (res & Hr & H).
  rewrite !andb_true_iff, !bool_decide_eq_true in H. destruct H as [[[H1 H2] H3] H4].
  eexists 100, _, s, "a"%string, q, res, (log_at 1 "0"), 2, (log_at 1 "1").
  split; [clear; lia|]. split; [clear; left; lia|]. split; [exact Hs|]. split.
  { rewrite H4. clear. simpl. rewrite !Forall_cons. repeat split; try constructor; simpl; lia. }
  do 3 (split; [reflexivity|]). split; [exact Hr|]. split; [exact H3|]. split; [exact H1|].
  split; [clear; simpl; lia|]. split; [reflexivity|exact H2].
Qed.

Lemma limit_exceeded :
  ∃ m ops s src q res,
    1 <= m ∧ uncrowded m ops ∧ run (new_store m) ops = Some s ∧
    get_env src q s = Some res ∧ 1 <= q_limit q < Z.of_nat (length res).
Proof.
  set (q := window 0 100 2).
  assert (H : (match run (new_store 100) (putA <$> [1;1;1;1;2;3]) with
     | Some s => match get_env "a" q s with
       | Some res => bool_decide (length res = 6%nat)
       | None => false end | None => false end) = true) by (vm_compute; reflexivity).
  apply opt_witness in H as (s & Hs & H). apply opt_witness in H as (res & Hr & H).
  rewrite bool_decide_eq_true in H.
  eexists 100, _, s, "a"%string, q, res. split; [clear; lia|]. split; [clear; left; lia|]. split; [exact Hs|]. split; [exact Hr|].
  rewrite H. clear. simpl. lia.
Qed.

Lemma clock_skips_oldest :
  ∃ m ops s src k e,
    1 <= m ∧ uncrowded m ops ∧ (∃ q pri now, last ops = Some (OTruncate q pri now) ∧ q ≠ 0) ∧
    run (new_store m) ops = Some s ∧ (src, (k, e)) ∈ all_stored s ∧ k < st_oldest s.
Proof.
  assert (H : (match run (new_store 100) two_sources with
     | Some s => bool_decide (("a", (2, log_at 2 "0")) ∈ all_stored s) && (2 <? st_oldest s)
     | None => false end) = true) by (vm_compute; reflexivity).
  apply opt_witness in H as (s & Hs & H). rewrite !andb_true_iff, bool_decide_eq_true in H. destruct H as [H1 H2].
  exists 100, two_sources, s, "a"%string, 2, (log_at 2 "0").
  split; [clear; lia|]. split; [clear; left; lia|]. split; [do 3 eexists; split; [reflexivity|clear; lia]|].
  split; [exact Hs|]. split; [exact H1|]. clear -H2. lia.
Qed.
