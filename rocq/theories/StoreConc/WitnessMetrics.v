(** Concrete schedules of the store with its metrics. *)
From stdpp Require Import prelude gmap strings.
From Verif.Base Require Import GoInt Envelope.
From Verif.Store Require Import Avl GoHeap Model Spec.
From Verif.StoreConc Require Import Model Spec Witness Metrics SpecMetrics.
Open Scope Z_scope.

(** A schedule in which every gauge update is finished as soon as it is begun *)
Fixpoint promptly (c : mconfig) (ls : list label) : list mlabel :=
  match ls with
  | [] => []
  | l :: ls' =>
      match mstep c (MStore l), l with
      | Some c', LStep tid _ =>
          match mc_pend c' !! tid with
          | Some _ => [MStore l; MLoad tid; MSet tid] ++
                      match mrun c' [MLoad tid; MSet tid] with Some c2 => promptly c2 ls' | None => [] end
          | None => MStore l :: promptly c' ls'
          end
      | Some c', LCall _ => MStore l :: promptly c' ls'
      | None, _ => []
      end
  end.
Fixpoint aloneb (c : mconfig) (ls : list mlabel) : bool :=
  match ls with
  | [] => true
  | l :: ls' =>
      match mstep c l with
      | None => true
      | Some c' => ((sh_count (cf_sh (mc_cfg c')) =? sh_count (cf_sh (mc_cfg c))) || (size (mc_pend c) =? 0)%nat) && aloneb c' ls'
      end
  end.
Lemma aloneb_sound m ls : aloneb (minitial m) ls = true -> one_at_a_time m ls.
Proof.
  intros H l1 l l2 c c' -> H1 H2 Hne. revert H H1. generalize (minitial m). induction l1 as [|x l1 IH]; intros c0; cbn [app aloneb mrun].
  - intros H [= ->]. rewrite H2 in H. apply andb_prop in H as [H _]. apply orb_prop in H as [H|H].
    + apply Z.eqb_eq in H. done.
    + apply Nat.eqb_eq in H. by apply map_size_empty_iff.
  - destruct (mstep c0 x) as [c1|]; [|done]. intros H. apply andb_prop in H as [_ H]. by apply IH.
Qed.

(** Two Puts to different sources: the first has read the counter when the second adds to it, and is the last
    to set the gauge *)
Definition late_set : list mlabel :=
  [MStore (LCall (CPut (env "a" 10) "a")); MStore (LCall (CPut (env "b" 20) "b"))] ++
  (MStore <$> goes 0 5) ++ [MLoad 0] ++ (MStore <$> goes 1 5) ++ [MLoad 1; MSet 1; MSet 0] ++ (MStore <$> [go 0; go 1]).
(** ... and then a Get and a Meta *)
Definition late_read : list mlabel :=
  late_set ++ (MStore <$> [LCall (CGet "a" everything); go 2; go 2; go 2; LCall CMeta; go 3; visit_key 3 "a"; go 3; visit_key 3 "b"; go 3;
    go 3; go 3; go 3; go 3; go 3; go 3]).
