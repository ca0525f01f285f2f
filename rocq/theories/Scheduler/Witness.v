(** An executable choice among the steps, used to exhibit concrete histories. *)
From stdpp Require Import prelude gmap strings list.
From Verif.Base Require Import GoInt Envelope.
From Verif.Routing Require Import Model Spec ProofsTable.
From Verif.Scheduler Require Import Model Spec.
Open Scope Z_scope.

Global Instance op_eq_dec : EqDecision op.
Proof. solve_decision. Defined.

Definition serve_f (addrs : list string) (n : snode) (q : request) : snode :=
  match q with
  | RqList => n
  | RqAdd r => mk_sn (sn_ranges n ++ [r]) (sn_table n)
  | RqRemove r => mk_sn (remove_first r (sn_ranges n)) (sn_table n)
  | RqSet m => mk_sn (sn_ranges n) (isort (table_entries addrs (map_to_list m)))
  end.
Lemma serve_f_ok addrs n q : serves addrs n q (serve_f addrs n q).
Proof. destruct q; cbn; try done. eexists. split; [|done]. apply set_ranges_exists. Qed.

Definition call_f (addrs : list string) (nodes : gmap string snode) (w : string) (q : request) (oc : outcome) : option (gmap string snode) :=
  match oc with
  | FailedBefore => Some nodes
  | _ => n ← nodes !! w; Some (<[w := serve_f addrs n q]> nodes)
  end.
Lemma call_f_ok addrs nodes w q oc nodes' : call_f addrs nodes w q oc = Some nodes' -> calls addrs nodes w q oc nodes'.
Proof.
  destruct oc; cbn; [|by intros [= <-]|]; intros (n & Hn & [= <-])%bind_Some; exists n; eexists;
    (split; [done|]); (split; [apply serve_f_ok|done]).
Qed.

Definition may_lead (b : bool) (s : sys) (i : nat) : bool := negb b || bool_decide (sy_leader s = Some i).
Definition rep_ok (nodes : gmap string snode) (o : op) (rep : list range) (oc : outcome) : bool :=
  match oc with
  | Arrived => match nodes !! op_worker o with Some n => bool_decide (rep = sn_ranges n) | None => false end
  | _ => true
  end.

Definition step_f (addrs clients : list string) (s : sys) (l : label) : option sys :=
  match l with
  | LElect ld => Some (mk_sys (sy_nodes s) (sy_scheds s) ld)
  | LRestart a => _ ← sy_nodes s !! a; Some (mk_sys (<[a := fresh_node]> (sy_nodes s)) (sy_scheds s) (sy_leader s))
  | LIssue i o => c ← sy_scheds s !! i;
      Some (mk_sys (sy_nodes s) (<[i := mk_sc (sc_calls c ++ [issue o]) (sc_pub c)]> (sy_scheds s)) (sy_leader s))
  | LAsk i j b => c ← sy_scheds s !! i; x ← sc_calls c !! j;
      match x with
      | Asking o => if may_lead b s i then
          Some (mk_sys (sy_nodes s)
             (<[i := mk_sc (<[j := if b then Ready o else Over]> (sc_calls c)) (sc_pub c)]> (sy_scheds s)) (sy_leader s)) else None
      | _ => None
      end
  | LCall i j o rep oc => c ← sy_scheds s !! i; x ← sc_calls c !! j;
      match x with
      | Ready o' => if bool_decide (o' = o) && rep_ok (sy_nodes s) o rep oc then
          nodes' ← call_f addrs (sy_nodes s) (op_worker o) (op_request o) oc;
          Some (mk_sys nodes' (<[i := mk_sc (<[j := Over]> (sc_calls c)) (sc_pub c)]> (sy_scheds s)) (sy_leader s)) else None
      | _ => None
      end
  | LDecide i ws b => c ← sy_scheds s !! i;
      match sc_pub c with
      | None => if may_lead b s i then
          Some (mk_sys (sy_nodes s)
             (<[i := mk_sc (sc_calls c) (if b then pending clients (convert_worker_state ws) else None)]> (sy_scheds s)) (sy_leader s)) else None
      | Some _ => None
      end
  | LPublish i a m oc => c ← sy_scheds s !! i;
      match sc_pub c with
      | Some (a' :: todo, m') => if bool_decide (a' = a) && bool_decide (m' = m) then
          nodes' ← call_f addrs (sy_nodes s) a (RqSet m) oc;
          Some (mk_sys nodes' (<[i := mk_sc (sc_calls c) (pending todo m)]> (sy_scheds s)) (sy_leader s)) else None
      | _ => None
      end
  end.

Lemma may_lead_ok b s i : may_lead b s i = true -> b = true -> sy_leader s = Some i.
Proof. unfold may_lead. intros H ->. cbn in H. by apply bool_decide_eq_true in H. Qed.
Lemma step_f_ok addrs clients s l s' : step_f addrs clients s l = Some s' -> step addrs clients s l s'.
Proof.
  destruct l as [ld|a|i o|i j b|i j o rep oc|i ws b|i a m oc]; cbn.
  - by intros [= <-].
  - intros (n & Hn & [= <-])%bind_Some. split; [by exists n|done].
  - intros (c & Hc & [= <-])%bind_Some. by exists c.
  - intros (c & Hc & (x & Hx & H)%bind_Some)%bind_Some. destruct x as [o| |]; try done.
    destruct (may_lead b s i) eqn:Hm; [|done]. injection H as <-. exists c, o. split; [done|]. split; [done|]. split; [|done].
    by apply may_lead_ok.
  - intros (c & Hc & (x & Hx & H)%bind_Some)%bind_Some. destruct x as [|o'|]; try done.
    destruct (_ && _) eqn:Hm in H; [|done]. apply andb_prop in Hm as [->%bool_decide_eq_true Hr].
    apply bind_Some in H as (nodes' & Hcall & [= <-]). exists c, nodes'. split; [done|]. split; [done|].
    split; [by apply call_f_ok|]. split; [|done]. intros ->. cbn in Hr. destruct (sy_nodes s !! op_worker o) as [n|]; [|done].
    exists n. split; [done|]. by apply bool_decide_eq_true in Hr.
  - intros (c & Hc & H)%bind_Some. destruct (sc_pub c) eqn:Hp; [done|].
    destruct (may_lead b s i) eqn:Hm; [|done]. injection H as <-. exists c. split; [done|]. split; [done|]. split; [|done].
    by apply may_lead_ok.
  - intros (c & Hc & H)%bind_Some. destruct (sc_pub c) as [[[|a' todo] m']|] eqn:Hp; [done| |done].
    destruct (_ && _) eqn:Hm in H; [|done]. apply andb_prop in Hm as [->%bool_decide_eq_true ->%bool_decide_eq_true].
    apply bind_Some in H as (nodes' & Hcall & [= <-]). exists c, todo, nodes'. split; [done|]. split; [done|].
    split; [by apply call_f_ok|done].
Qed.

Fixpoint runs_f (addrs clients : list string) (s : sys) (ls : list label) : option sys :=
  match ls with [] => Some s | l :: ls' => s1 ← step_f addrs clients s l; runs_f addrs clients s1 ls' end.
Lemma runs_f_ok addrs clients ls : ∀ s s', runs_f addrs clients s ls = Some s' -> runs addrs clients s ls s'.
Proof.
  induction ls as [|l ls IH]; cbn; intros s s'.
  - intros [= <-]. constructor.
  - intros (s1 & Hs & Hr)%bind_Some. econstructor; [by apply step_f_ok|by apply IH].
Qed.

(** The same, with a check of the final state that can be computed *)
Lemma runs_f_check addrs clients s ls (P : sys -> bool) :
  match runs_f addrs clients s ls with Some s' => P s' | None => false end = true ->
  ∃ s', runs addrs clients s ls s' ∧ P s' = true.
Proof. destruct (runs_f addrs clients s ls) as [s'|] eqn:H; [|done]. intros HP. exists s'. split; [by apply runs_f_ok|done]. Qed.

Definition at_rest_b (s : sys) : bool := forallb (fun c => bool_decide (sc_pub c = None)) (sy_scheds s).
Lemma at_rest_b_ok s : at_rest_b s = true -> at_rest s.
Proof.
  unfold at_rest_b, at_rest. intros H i c Hc. apply elem_of_list_lookup_2 in Hc.
  rewrite forallb_forall in H. apply elem_of_list_In, H in Hc. by apply bool_decide_eq_true in Hc.
Qed.
