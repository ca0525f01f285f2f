(** Runs of a cluster computed from a script, for the examples. *)
From stdpp Require Import prelude gmap strings list.
From Verif.Base Require Import GoInt Envelope.
From Verif.Store Require Import Model.
From Verif.Routing Require Import Model.
From Verif.Whole Require Import Model.
Open Scope Z_scope.

(** what is to happen; the answer of a read is computed *)
Inductive todo := Do (ev : event) | Ask (k : nat) (rq : read_request) (now : Z).

Fixpoint remove_all (xs l : list (nat * envelope)) : option (list (nat * envelope)) :=
  match xs with [] => Some l | x :: xs' => l' ← list_remove x l; remove_all xs' l' end.
Lemma remove_all_ok xs : ∀ l l', remove_all xs l = Some l' -> l ≡ₚ xs ++ l'.
Proof.
  induction xs as [|x xs IH]; intros l l'; cbn [remove_all]; [by intros [= ->]|].
  destruct (list_remove x l) as [l1|] eqn:E; [|done]. cbn [mbind option_bind]. intros H.
  apply list_remove_Some in E. rewrite E. cbn. f_equiv. by apply IH.
Qed.

Section play.
Context (hash : string -> Z) (compile : string -> option (string -> bool)).

Definition play_send (i : nat) (r : send_request) (ns : list node) : option (list (nat * send_request)) :=
  nd ← ns !! i;
  send_with (fun src => lookup (hash src) (n_table nd)) (length ns) i r
    (map_to_list (envelopes_by_node (fun src => lookup (hash src) (n_table nd)) (get_batch r))).

Definition play1 (c : cluster) (d : todo) : option (event * cluster) :=
  let '(mk_cluster ns fl) := c in
  match d with
  | Do (VSend i r) => calls ← play_send i r ns; Some (VSend i r, mk_cluster ns (flights calls ++ fl))
  | Do (VArrive j es) =>
      nd ← ns !! j; fl' ← remove_all (pair j <$> es) fl; s ← put_all 0 es (n_store nd);
      Some (VArrive j es, mk_cluster (<[j := mk_node (n_table nd) s]> ns) fl')
  | Do (VLose j e) => fl' ← list_remove (j, e) fl; Some (VLose j e, mk_cluster ns fl')
  | Do (VTable i t) => nd ← ns !! i; Some (VTable i t, mk_cluster (<[i := mk_node t (n_store nd)]> ns) fl)
  | Do (VPrune i n pri) =>
      nd ← ns !! i; s ← truncate n pri 0 (n_store nd);
      Some (VPrune i n pri, mk_cluster (<[i := mk_node (n_table nd) s]> ns) fl)
  | Do (VRestart i m) =>
      nd ← ns !! i; if decide (1 <= m) then Some (VRestart i m, mk_cluster (<[i := mk_node [] (new_store m)]> ns) fl) else None
  | Do (VRead _ _ _ _) => None
  | Ask k rq now =>
      nd ← ns !! k;
      let a := local_read compile now rq (n_store nd) in
      Some (VRead k rq now a,
        mk_cluster (<[k := mk_node (n_table nd)
                        (match a with ReadOk es => add_egress (Z.of_nat (length es)) (n_store nd) | _ => n_store nd end)]> ns) fl)
  end.

Lemma play1_ok c d ev c' : play1 c d = Some (ev, c') -> step hash compile c ev c'.
Proof.
  destruct c as [ns fl]. destruct d as [[i r|j es|j e|i t|i n pri|i m|k rq now a]|k rq now]; cbn [play1].
  - unfold play_send. destruct (ns !! i) as [nd|] eqn:Hi; [|done]. cbn [mbind option_bind].
    destruct (send_with _ _ _ _ _) as [calls|] eqn:Hs; [|done]. cbn [mbind option_bind]. intros [= <- <-].
    eapply step_send; [done|]. eexists. split; [reflexivity|]. done.
  - destruct (ns !! j) as [nd|] eqn:Hi; [|done]. cbn [mbind option_bind].
    destruct (remove_all _ _) as [fl'|] eqn:Hf; [|done]. cbn [mbind option_bind].
    destruct (put_all _ _ _) as [s|] eqn:Hp; [|done]. cbn [mbind option_bind]. intros [= <- <-].
    apply remove_all_ok in Hf. by eapply step_arrive.
  - destruct (list_remove _ _) as [fl'|] eqn:Hf; [|done]. cbn [mbind option_bind]. intros [= <- <-].
    apply list_remove_Some in Hf. by eapply step_lose.
  - destruct (ns !! i) as [nd|] eqn:Hi; [|done]. cbn [mbind option_bind]. intros [= <- <-]. by eapply step_table.
  - destruct (ns !! i) as [nd|] eqn:Hi; [|done]. cbn [mbind option_bind].
    destruct (truncate _ _ _ _) as [s|] eqn:Hp; [|done]. cbn [mbind option_bind]. intros [= <- <-]. by eapply step_prune.
  - destruct (ns !! i) as [nd|] eqn:Hi; [|done]. cbn [mbind option_bind]. destruct (decide _); [|done]. intros [= <- <-].
    by eapply step_restart.
  - done.
  - destruct (ns !! k) as [nd|] eqn:Hi; [|done]. cbn [mbind option_bind]. intros [= <- <-]. by eapply step_read.
Qed.

(** the trace, last event first *)
Fixpoint play (tr : list event) (c : cluster) (ds : list todo) : option (list event * cluster) :=
  match ds with
  | [] => Some (tr, c)
  | d :: ds' => '(ev, c') ← play1 c d; play (tr ++ [ev]) c' ds'
  end.

Lemma play_ok c0 ds : ∀ tr c tr' c', runs hash compile c0 tr c -> play tr c ds = Some (tr', c') -> runs hash compile c0 tr' c'.
Proof.
  induction ds as [|d ds IH]; intros tr c tr' c' Hr; cbn [play]; [by intros [= <- <-]|].
  destruct (play1 c d) as [[ev c1]|] eqn:E; [|done]. cbn [mbind option_bind]. intros H.
  eapply IH; [|exact H]. eapply runs_snoc; [done|]. by apply play1_ok in E.
Qed.

Lemma played c0 ds f :
  match play [] c0 ds with Some (tr, c) => f tr | None => false end = true -> ∃ tr c, runs hash compile c0 tr c ∧ f tr = true.
Proof.
  destruct (play [] c0 ds) as [[tr c]|] eqn:E; [|done]. intros H. exists tr, c. split; [|done].
  eapply play_ok; [apply runs_nil|exact E].
Qed.
End play.
