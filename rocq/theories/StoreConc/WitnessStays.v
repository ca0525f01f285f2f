From stdpp Require Import prelude gmap strings.
From Verif.StoreConc Require Import Model ProofsLock SpecStays.

Definition known (src : string) (c : config) : bool := bool_decide (is_Some (sh_index (cf_sh c) !! src)).
Fixpoint stays_check (src : string) (c : config) (ls : list label) : bool :=
  match ls with
  | [] => true
  | l :: ls' => match cstep c l with
                | Some c' => (negb (known src c) || known src c') && stays_check src c' ls'
                | None => true
                end
  end.
Lemma stays_run src l2 : ∀ c1 c2 l3, stays_check src c1 (l2 ++ l3) = true -> crun c1 l2 = Some c2 -> known src c1 = true -> known src c2 = true.
Proof.
  induction l2 as [|l l2 IH]; intros c1 c2 l3 H Hr Hk; cbn in *; [by injection Hr as <-|].
  destruct (cstep c1 l) as [c'|]; [|done]. cbn in Hr. apply andb_prop in H as [H1 H2]. rewrite Hk in H1. cbn in H1. by eapply IH.
Qed.
Lemma stays_suffix src l1 : ∀ c c1 l2, stays_check src c (l1 ++ l2) = true -> crun c l1 = Some c1 -> stays_check src c1 l2 = true.
Proof.
  induction l1 as [|l l1 IH]; intros c c1 l2 H Hr; cbn in *; [by injection Hr as <-|].
  destruct (cstep c l) as [c'|]; [|done]. cbn in Hr. apply andb_prop in H as [_ H]. by eapply IH.
Qed.
Lemma stays_check_ok m ls src : stays_check src (initial m) ls = true -> stays m ls src.
Proof.
  intros H l1 l2 l3 c1 c2 -> H1 H2 Hk. pose proof (stays_suffix _ _ _ _ _ H H1) as H'.
  rewrite crun_app, H1 in H2. cbn in H2. pose proof (stays_run src l2 c1 c2 l3 H' H2) as Hr. unfold known in Hr.
  apply bool_decide_eq_true in Hr; [done|by apply bool_decide_eq_true].
Qed.
