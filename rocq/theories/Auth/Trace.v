(** What one goroutine may do, whatever the others do: every effect may have any result. *)
From Coq Require Import Ascii String.
From stdpp Require Import prelude gmap strings list.
From Verif.Auth Require Import Model System Spec.
Open Scope string_scope.
Open Scope list_scope.
Open Scope nat_scope.

Section Trace.
Context {L : lib}.

Definition frob {A} (p : prog L A) : prog L A :=
  match p with Ret a => Ret a | Panic => Panic | Tau p => Tau p | Vis e k => Vis e k end.
Lemma frob_eq {A} (p : prog L A) : p = frob p.
Proof. by destruct p. Qed.

Lemma bind_ret {A B} a (f : A -> prog L B) : bind (Ret a) f = f a.
Proof. rewrite (frob_eq (bind _ _)). change (frob (bind (Ret a) f)) with (frob (f a)). symmetry. apply frob_eq. Qed.
Lemma bind_panic {A B} (f : A -> prog L B) : bind Panic f = Panic.
Proof. rewrite (frob_eq (bind _ _)). done. Qed.
Lemma bind_tau {A B} p (f : A -> prog L B) : bind (Tau p) f = Tau (bind p f).
Proof. rewrite (frob_eq (bind _ _)). done. Qed.
Lemma bind_vis {A B X} (e : eff L X) k (f : A -> prog L B) : bind (Vis e k) f = Vis e (fun x => bind (k x) f).
Proof. rewrite (frob_eq (bind _ _)). done. Qed.

Section Loop.
Context {S B : Type} (body : S -> prog L (S + B)).
Lemma loop_inl s : loop body (Ret (inl s)) = Tau (loop body (body s)).
Proof. rewrite (frob_eq (loop _ _)). done. Qed.
Lemma loop_inr b : loop body (Ret (inr b)) = Ret b.
Proof. rewrite (frob_eq (loop _ _)). done. Qed.
Lemma loop_panic : loop body Panic = Panic.
Proof. rewrite (frob_eq (loop _ _)). done. Qed.
Lemma loop_tau p : loop body (Tau p) = Tau (loop body p).
Proof. rewrite (frob_eq (loop _ _)). done. Qed.
Lemma loop_vis X (e : eff L X) k : loop body (Vis e k) = Vis e (fun x => loop body (k x)).
Proof. rewrite (frob_eq (loop _ _)). done. Qed.
End Loop.

(** Inversions without dependent equalities *)
Lemma tr_inv {A} n (p : prog L A) l q : tr n p l q ->
  match p with
  | Ret a => l = [] /\ q = Ret a
  | Panic => l = [] /\ q = Panic
  | Tau p' => (l = [] /\ q = Tau p') \/ exists n', n = S n' /\ tr n' p' l q
  | @Vis _ _ X e k => (l = [] /\ q = Vis e k) \/
      exists n' x l', n = S n' /\ l = act_of e x :: l' /\ possible e x /\ tr n' (k x) l' q
  end.
Proof.
  intros H. destruct H as [n p|n p l q H|n X e k x l q Hx H].
  - destruct p; auto.
  - right. eauto.
  - right. eauto 10.
Qed.

Lemma tr_mono {A} n m (p : prog L A) l q : tr n p l q -> n <= m -> tr m p l q.
Proof.
  intros H. revert m. induction H as [n p|n p l q H IH|n X e k x l q Hx H IH]; intros m Hm; [constructor| |].
  - destruct m as [|m]; [lia|]. constructor. apply IH. lia.
  - destruct m as [|m]; [lia|]. constructor; [done|]. apply IH. lia.
Qed.
Lemma tr_0 {A} (p : prog L A) l q : tr 0 p l q -> l = [] /\ q = p.
Proof. intros H. inversion H; done. Qed.

Lemma tr_bind {A B} n (f : A -> prog L B) : forall (p : prog L A) l q, tr n (bind p f) l q ->
  (exists p', tr n p l p' /\ q = bind p' f) \/
  (exists l1 l2 a, l = l1 ++ l2 /\ tr n p l1 (Ret a) /\ tr n (f a) l2 q).
Proof.
  induction n as [|n IH]; intros p l q H.
  - apply tr_0 in H as [-> ->]. left. exists p. split; [constructor|done].
  - destruct p as [a| |p|X e k].
    + rewrite bind_ret in H. right. exists [], l, a. split; [done|]. split; [constructor|done].
    + rewrite bind_panic in H. apply tr_inv in H as [-> ->]. left. exists Panic. rewrite bind_panic. split; [constructor|done].
    + rewrite bind_tau in H. apply tr_inv in H as [[-> ->]|(n' & [= <-] & H)].
      * left. exists (Tau p). rewrite bind_tau. split; [constructor|done].
      * apply IH in H as [(p' & H & ->)|(l1 & l2 & a & -> & H1 & H2)].
        -- left. exists p'. split; [by constructor|done].
        -- right. exists l1, l2, a. split; [done|]. split; [by constructor|]. eapply tr_mono; [done|lia].
    + rewrite bind_vis in H. apply tr_inv in H as [[-> ->]|(n' & x & l' & [= <-] & -> & Hx & H)].
      * left. exists (Vis e k). rewrite bind_vis. split; [constructor|done].
      * apply IH in H as [(p' & H & ->)|(l1 & l2 & a & -> & H1 & H2)].
        -- left. exists p'. split; [by constructor|done].
        -- right. exists (act_of e x :: l1), l2, a. split; [done|]. split; [by constructor|]. eapply tr_mono; [done|lia].
Qed.

(** a finished bind *)
Lemma tr_bind_ret {A B} n (f : A -> prog L B) (p : prog L A) l b : tr n (bind p f) l (Ret b) ->
  exists l1 l2 a, l = l1 ++ l2 /\ tr n p l1 (Ret a) /\ tr n (f a) l2 (Ret b).
Proof.
  intros H. apply tr_bind in H as [(p' & H & E)|H]; [|done].
  destruct p' as [a| |p'|X e k]; [|by rewrite bind_panic in E|by rewrite bind_tau in E|by rewrite bind_vis in E].
  rewrite bind_ret in E. exists l, [], a. rewrite app_nil_r, <- E. split; [done|]. split; [done|constructor].
Qed.
Lemma tr_do_ret {X} n (e : eff L X) l x : tr n (do e) l (Ret x) -> l = [act_of e x] /\ possible e x.
Proof.
  intros H. apply tr_inv in H as [[-> E]|(n' & y & l' & _ & -> & Hx & H)]; [done|].
  apply tr_inv in H as [-> [= ->]]. done.
Qed.
Lemma tr_ret {A} n (a : A) l b : tr n (Ret a) l (Ret b : prog L A) -> l = [] /\ b = a.
Proof. intros H. by apply tr_inv in H as [-> [= ->]]. Qed.

Lemma tr_loop {S B} (body : S -> prog L (S + B)) n : forall p l q, tr n (loop body p) l q ->
  (exists p', tr n p l p' /\ q = loop body p') \/
  (exists b, tr n p l (Ret (inr b)) /\ q = Ret b) \/
  (exists n' l1 l2 s, n = Datatypes.S n' /\ l = l1 ++ l2 /\ tr n p l1 (Ret (inl s)) /\ tr n' (loop body (body s)) l2 q).
Proof.
  induction n as [|n IH]; intros p l q H.
  - apply tr_0 in H as [-> ->]. left. exists p. split; [constructor|done].
  - destruct p as [[s|b]| |p|X e k].
    + rewrite loop_inl in H. apply tr_inv in H as [[-> ->]|(n' & [= <-] & H)].
      * left. exists (Ret (inl s)). rewrite loop_inl. split; [constructor|done].
      * right; right. exists n, [], l, s. split; [done|]. split; [done|]. split; [constructor|done].
    + rewrite loop_inr in H. apply tr_inv in H as [-> ->]. right; left. exists b. split; [constructor|done].
    + rewrite loop_panic in H. apply tr_inv in H as [-> ->]. left. exists Panic. rewrite loop_panic. split; [constructor|done].
    + rewrite loop_tau in H. apply tr_inv in H as [[-> ->]|(n' & [= <-] & H)].
      * left. exists (Tau p). rewrite loop_tau. split; [constructor|done].
      * apply IH in H as [(p' & H & ->)|[(b & H & ->)|(n' & l1 & l2 & s & -> & -> & H1 & H2)]].
        -- left. exists p'. split; [by constructor|done].
        -- right; left. exists b. split; [by constructor|done].
        -- right; right. exists (Datatypes.S n'), l1, l2, s. split; [done|]. split; [done|]. split; [by constructor|].
           eapply tr_mono; [done|lia].
    + rewrite loop_vis in H. apply tr_inv in H as [[-> ->]|(n' & x & l' & [= <-] & -> & Hx & H)].
      * left. exists (Vis e k). rewrite loop_vis. split; [constructor|done].
      * apply IH in H as [(p' & H & ->)|[(b & H & ->)|(n' & l1 & l2 & s & -> & -> & H1 & H2)]].
        -- left. exists p'. split; [by constructor|done].
        -- right; left. exists b. split; [by constructor|done].
        -- right; right. exists (Datatypes.S n'), (act_of e x :: l1), l2, s. split; [done|]. split; [done|].
           split; [by constructor|]. eapply tr_mono; [done|lia].
Qed.

(** properties of everything a program may do, for properties closed under concatenation *)
Section Holds.
Context (G : list (act L) -> Prop) (Gnil : G []) (Gapp : forall a b, G a -> G b -> G (a ++ b)).
Definition holds {A} (p : prog L A) : Prop := forall n l q, tr n p l q -> G l.
Lemma holds_ret {A} (a : A) : holds (Ret a).
Proof. intros n l q H. by apply tr_inv in H as [-> _]. Qed.
Lemma holds_panic {A} : holds (@Panic L A).
Proof. intros n l q H. by apply tr_inv in H as [-> _]. Qed.
Lemma holds_bind {A B} (p : prog L A) (f : A -> prog L B) : holds p -> (forall a, holds (f a)) -> holds (bind p f).
Proof.
  intros Hp Hf n l q H. apply tr_bind in H as [(p' & H & _)|(l1 & l2 & a & -> & H1 & H2)].
  - by eapply Hp.
  - apply Gapp; [by eapply Hp|by eapply Hf].
Qed.
Lemma holds_do {X} (e : eff L X) : (forall x, possible e x -> G [act_of e x]) -> holds (do e).
Proof.
  intros He n l q H. apply tr_inv in H as [[-> _]|(n' & x & l' & _ & -> & Hx & H)]; [done|].
  apply tr_inv in H as [-> _]. by apply He.
Qed.
Lemma holds_loop {S B} (body : S -> prog L (S + B)) p : (forall s, holds (body s)) -> holds p -> holds (loop body p).
Proof.
  intros Hb Hp n. revert p Hp. induction n as [n IH] using lt_wf_ind. intros p Hp l q H.
  apply tr_loop in H as [(p' & H & _)|[(b & H & _)|(n' & l1 & l2 & s & -> & -> & H1 & H2)]].
  - by eapply Hp.
  - by eapply Hp.
  - apply Gapp; [by eapply Hp|]. eapply (IH n'); [lia|apply Hb|done].
Qed.
Lemma holds_forever {S B} (body : S -> prog L (S + B)) s : (forall s, holds (body s)) -> holds (forever body s).
Proof. intros H. by apply holds_loop. Qed.
End Holds.
End Trace.
