(** The batching client comes to rest. *)
From stdpp Require Import prelude gmap.
From Coq Require Import NArith.
From Verif.Nozzle Require Import Spec Model Observe Proofs ProofsNozzle.
Open Scope nat_scope.

Section Progress.
Context {E : Type}.
Implicit Types (ls : list (blabel E)).
Definition loops (l : list (bool * bool)) : list (blabel E) := map (fun x => BLoop x.1 x.2) l.

Lemma accepted_loops l : accepted (loops l) = [].
Proof. induction l as [|x l IH]; [done|exact IH]. Qed.
Lemma write_batch_ring (s : bic E) ok : b_ring (write_batch s ok) = b_ring s.
Proof. unfold write_batch. by destruct (b_batch s). Qed.
Lemma loop_ring n size (s : bic E) a b : b_ring (bic_loop n size s a b) = (diode_try n (b_ring s)).1.1.
Proof.
  unfold bic_loop. destruct (diode_try n (b_ring s)) as [[d o] x]. cbn [fst].
  destruct o as [e|].
  - destruct (decide _); [by rewrite write_batch_ring|]. destruct a; [by rewrite write_batch_ring|done].
  - destruct a; [by rewrite write_batch_ring|done].
Qed.

Lemma loops_drain n size ls l : (0 < n)%N -> 0 < size ->
  (N.of_nat (length (accepted ls)) <= N.of_nat (length l) + d_r (b_ring (brun n size ls)))%N ->
  d_r (b_ring (brun n size (ls ++ loops l))) = N.of_nat (length (accepted ls)).
Proof.
  intros Hn Hsz. revert ls. induction l as [|[a b] l IH]; intros ls Hlen.
  - cbn [loops map]. rewrite app_nil_r. cbn in Hlen.
    destruct (binv_run n size ls Hn Hsz) as (os & [Hring _ _ _ _ _]).
    pose proof (di_w _ _ _ Hring). pose proof (di_r _ _ _ Hring). lia.
  - change (ls ++ loops ((a, b) :: l)) with (ls ++ [BLoop a b] ++ loops l). rewrite app_assoc.
    assert (Ha : accepted (ls ++ [BLoop a b]) = accepted ls) by (rewrite accepted_app; cbn; by rewrite app_nil_r).
    rewrite IH, Ha; [done|]. rewrite Ha.
    destruct (binv_run n size ls Hn Hsz) as (os & [Hring _ _ _ _ _]).
    unfold brun in *. rewrite foldl_app. cbn [foldl bstep].
    set (s := foldl (bstep n size) bic_new ls) in *. rewrite loop_ring.
    destruct (diode_try n (b_ring s)) as [[d o] x] eqn:Et. cbn [fst].
    destruct (dinv_try _ _ _ _ _ _ Hn Hring Et) as [_ Hcase].
    pose proof (di_w _ _ _ Hring) as Hw. cbn [length] in Hlen.
    destruct Hcase as [(H1 & _ & _ & H4)|(y & k & _ & _ & _ & _ & _ & H4)]; rewrite H4; lia.
Qed.

Lemma client_rests n size ls l ok : (0 < n)%N -> 0 < size -> length (accepted ls) <= length l ->
  let s := brun n size (ls ++ loops l ++ [BLoop true ok]) in
  b_batch s = [] /\ (diode_try n (b_ring s)).1.2 = None /\
  exists os, explains (accepted ls) os /\ got os = concat (map pr_envs (b_reqs s)) /\ b_dropped s = dropped os.
Proof.
  intros Hn Hsz Hlen. cbv zeta. rewrite app_assoc.
  pose proof (loops_drain n size ls l Hn Hsz ltac:(lia)) as Hd.
  assert (Ha : accepted (ls ++ loops l) = accepted ls) by (by rewrite accepted_app, accepted_loops, app_nil_r).
  assert (Ha' : accepted ((ls ++ loops l) ++ [BLoop true ok]) = accepted ls) by (rewrite accepted_app, Ha; cbn; by rewrite app_nil_r).
  destruct (binv_run n size (ls ++ loops l) Hn Hsz) as (os0 & [Hring _ _ _ _ _]).
  assert (Ht : (diode_try n (b_ring (brun n size (ls ++ loops l)))).1.2 = None).
  { apply (try_none n _ _ Hn Hring). rewrite Hd, (di_w _ _ _ Hring), Ha. done. }
  assert (Hb : b_batch (brun n size ((ls ++ loops l) ++ [BLoop true ok])) = []).
  { unfold brun in *. rewrite foldl_app. cbn [foldl bstep]. unfold bic_loop.
    destruct (diode_try n (b_ring (foldl (bstep n size) bic_new (ls ++ loops l)))) as [[d o] x]. cbn in Ht. subst o.
    unfold write_batch. cbn [b_batch]. by destruct (b_batch (foldl _ _ _)) eqn:Eb. }
  assert (Ht' : (diode_try n (b_ring (brun n size ((ls ++ loops l) ++ [BLoop true ok])))).1.2 = None).
  { destruct (binv_run n size ((ls ++ loops l) ++ [BLoop true ok]) Hn Hsz) as (os1 & [Hring1 _ _ _ _ _]).
    apply (try_none n _ _ Hn Hring1). rewrite (di_w _ _ _ Hring1), Ha'.
    replace ((ls ++ loops l) ++ [BLoop true ok]) with (ls ++ loops (l ++ [(true, ok)]))
      by (unfold loops; rewrite map_app, app_assoc; done).
    apply loops_drain; [done|done|]. rewrite app_length. lia. }
  destruct (bic_accounting n size ((ls ++ loops l) ++ [BLoop true ok]) Hn Hsz) as (seen & waiting & os & H1 & H2 & H3 & H4 & _ & _ & H7).
  split; [done|]. split; [done|]. apply H3 in Ht' as ->. rewrite app_nil_r, Ha' in H1. subst seen. exists os. split; [done|].
  rewrite Hb, app_nil_r in H4. done.
Qed.
End Progress.
