(** Proofs about the number a sample holds. *)
From Coq Require Import ZArith Reals Lra.
From Flocq Require Import Core BinarySingleNaN.
From stdpp Require Import prelude gmap strings list.
From Verif.Base Require Import GoInt Envelope.
From Verif.Prune Require Import Model Proofs.
From Verif.Promql Require Import Model Values.
Open Scope Z_scope.

Lemma of_int_nearest z : Z.abs z <= 2 ^ 64 -> nearest (of_int z) z.
Proof.
  intros Hz. destruct (of_int_spec z Hz) as [F E]. split; [exact F|]. split.
  - intros y Fy. rewrite E.
    destruct (round_N_pt radix2 (SpecFloat.fexp 53 1024) (fun n => negb (Z.even n)) (IZR z)) as [_ H].
    apply H. apply generic_format_B2R.
  - intros Hs. rewrite E. by apply rnd_int.
Qed.
Lemma of_int_mono a b : Z.abs a <= 2 ^ 64 -> Z.abs b <= 2 ^ 64 -> a <= b -> (B2R (of_int a) <= B2R (of_int b))%R.
Proof.
  intros Ha Hb Hab. destruct (of_int_spec a Ha) as [_ ->]. destruct (of_int_spec b Hb) as [_ ->].
  apply round_le; [apply (fexp_correct 53 1024); apply prec_gt_0_53|apply valid_rnd_N|by apply IZR_le].
Qed.
