(** Runs of a cluster that talks in bytes computed from a script, for the examples. *)
From Coq Require Import Ascii String.
From stdpp Require Import prelude strings list gmap.
From Verif.Base Require Import GoInt Envelope.
From Verif.Store Require Import Model.
From Verif.Routing Require Import Model ProofsTable.
From Verif.Whole Require Import Model Witness.
From Verif.Wire Require Import Format Model Frame Control Cluster.
Open Scope Z_scope.

Inductive btodo := PSend (i : nat) (b : string) | PKeep (j : nat) (es : list envelope) | PPass (j : nat) (es : list envelope)
| PDrop (j : nat) (e : envelope) | PTable (i : nat) (b : string) | PRestart (i : nat) (m : Z)
| PAsk (n i : nat) (b : string) | PMove (n : nat) (now : Z) | PBack (n : nat) | PGive (n : nat).

Section play.
Context (grow : nat -> nat) (nils : bool) (addrs : list string) (hash : string -> Z) (compile : string -> option (string -> bool)).

Definition bplay1 (c : bcluster) (d : btodo) : option (bevent * bcluster) :=
  let '(mk_b (mk_cluster ns fl) cs) := c in
  match d with
  | PSend i b =>
      match carried b ≫= unmarshal_send with
      | None => Some (BSend i b, c)
      | Some r => calls ← play_send hash i r ns; Some (BSend i b, mk_b (mk_cluster ns (flights calls ++ fl)) cs)
      end
  | PKeep j es =>
      nd ← ns !! j; fl' ← remove_all (pair j <$> es) fl; s ← put_all 0 es (n_store nd);
      Some (BKeep j es, mk_b (mk_cluster (<[j := mk_node (n_table nd) s]> ns) fl') cs)
  | PPass j es =>
      fl' ← remove_all (pair j <$> es) fl; b ← marshal_send (mk_send true (Some es)); b' ← carried b; r ← unmarshal_send b';
      calls ← play_send hash j r ns; ns' ← deliver 0 calls ns; Some (BPass j es, mk_b (mk_cluster ns' fl') cs)
  | PDrop j e => fl' ← list_remove (j, e) fl; Some (BDrop j e, mk_b (mk_cluster ns fl') cs)
  | PTable i b =>
      nd ← ns !! i; b' ← carried b; m ← unmarshal_assignment nils b';
      kvs ← mapM (fun kv : string * option (list range) => v ← kv.2; Some (kv.1, v)) (map_to_list m);
      let t := isort (table_entries addrs (map_to_list (list_to_map kvs : gmap string (list range)))) in
      Some (BTable i b t, mk_b (mk_cluster (<[i := mk_node t (n_store nd)]> ns) fl) cs)
  | PRestart i m =>
      nd ← ns !! i; if decide (1 <= m) then Some (BRestart i m, mk_b (mk_cluster (<[i := mk_node [] (new_store m)]> ns) fl) cs) else None
  | PAsk n i b => match cs !! n with None => Some (BAsk n i b, mk_b (mk_cluster ns fl) (<[n := Asked [] i b]> cs)) | Some _ => None end
  | PMove n now =>
      match cs !! n with
      | Some (Asked path i b) =>
          b' ← carried b; rq ← unmarshal_read b'; nd ← ns !! i;
          match read_route_of (lookup (hash (rr_source rq)) (n_table nd)) (length ns) i 0 with
          | Some (CallNode j) =>
              if decide (j = i) then
                let a := local_read compile now rq (n_store nd) in
                Some (BServe n i rq now a,
                  mk_b (mk_cluster (<[i := mk_node (n_table nd)
                                (match a with ReadOk es => add_egress (Z.of_nat (length es)) (n_store nd) | _ => n_store nd end)]> ns) fl)
                       (<[n := Replied path (match a with ReadOk es => marshal_read_response (Some es) | _ => None end)]> cs))
              else b2 ← marshal_read rq; Some (BHop n, mk_b (mk_cluster ns fl) (<[n := Asked (i :: path) j b2]> cs))
          | _ => None
          end
      | _ => None
      end
  | PBack n =>
      match cs !! n with
      | Some (Replied (i :: path) (Some x)) =>
          x' ← carried x; batch ← unmarshal_read_response x'; Some (BBack n, mk_b (mk_cluster ns fl) (<[n := Replied path (marshal_read_response batch)]> cs))
      | _ => None
      end
  | PGive n => match cs !! n with Some (Replied [] a) => Some (BGive n (a ≫= carried), mk_b (mk_cluster ns fl) (delete n cs)) | _ => None end
  end.

Lemma bplay1_ok c d ev c' : bplay1 c d = Some (ev, c') -> bstep grow nils addrs hash compile c ev c'.
Proof.
  destruct c as [[ns fl] cs]. destruct d as [i b|j es|j es|j e|i b|i m|n i b|n now|n|n]; cbn [bplay1].
  - destruct (carried b) as [b'|] eqn:Ec; cbn [mbind option_bind].
    + destruct (unmarshal_send b') as [r|] eqn:Eu.
      * unfold play_send. destruct (ns !! i) as [nd|] eqn:Hi; [|done]. cbn [mbind option_bind].
        destruct (send_with _ _ _ _ _) as [calls|] eqn:Hs; [|done]. cbn [mbind option_bind]. intros [= <- <-].
        eapply b_send; [done|done|done|]. eexists. split; [reflexivity|]. done.
      * intros [= <- <-]. eapply b_send_refused. by rewrite Ec.
    + intros [= <- <-]. eapply b_send_refused. by rewrite Ec.
  - destruct (ns !! j) as [nd|] eqn:Hi; [|done]. cbn [mbind option_bind]. destruct (remove_all _ _) as [fl'|] eqn:Hf; [|done]. cbn [mbind option_bind].
    destruct (put_all _ _ _) as [s|] eqn:Hp; [|done]. cbn [mbind option_bind]. intros [= <- <-]. eapply b_keep; [done| |done]. by apply remove_all_ok.
  - destruct (remove_all _ _) as [fl'|] eqn:Hf; [|done]. cbn [mbind option_bind]. destruct (marshal_send _) as [b|] eqn:Em; [|done]. cbn [mbind option_bind].
    destruct (carried b) as [b'|] eqn:Ec; [|done]. cbn [mbind option_bind]. destruct (unmarshal_send b') as [r|] eqn:Eu; [|done]. cbn [mbind option_bind].
    unfold play_send. destruct (ns !! j) as [nd|] eqn:Hi; [|done]. cbn [mbind option_bind]. destruct (send_with _ _ _ _ _) as [calls|] eqn:Hs; [|done].
    cbn [mbind option_bind]. destruct (deliver _ _ _) as [ns'|] eqn:Ed; [|done]. cbn [mbind option_bind]. intros [= <- <-].
    eapply b_pass; [by apply remove_all_ok|done|done|done|done| |done]. eexists. split; [reflexivity|]. done.
  - destruct (list_remove _ _) as [fl'|] eqn:Hf; [|done]. cbn [mbind option_bind]. intros [= <- <-]. apply b_drop. by apply list_remove_Some.
  - destruct (ns !! i) as [nd|] eqn:Hi; [|done]. cbn [mbind option_bind]. destruct (carried b) as [b'|] eqn:Ec; [|done]. cbn [mbind option_bind].
    destruct (unmarshal_assignment nils b') as [m|] eqn:Ea; [|done]. cbn [mbind option_bind]. destruct (mapM _ _) as [kvs|] eqn:Ek; [|done]. cbn [mbind option_bind].
    intros [= <- <-]. eapply (b_table grow nils addrs hash compile i b b' _ new_orch []); [done|done|]. cbn [control_call]. rewrite Ea, Ek. eexists.
    split; [apply set_ranges_exists|done].
  - destruct (ns !! i) as [nd|] eqn:Hi; [|done]. cbn [mbind option_bind]. case_decide; [|done]. intros [= <- <-]. by eapply b_restart.
  - destruct (cs !! n) eqn:En; [done|]. intros [= <- <-]. by apply b_ask.
  - destruct (cs !! n) as [[path i b|]|] eqn:En; try done. destruct (carried b) as [b'|] eqn:Ec; [|done]. cbn [mbind option_bind].
    destruct (unmarshal_read b') as [rq|] eqn:Eu; [|done]. cbn [mbind option_bind]. destruct (ns !! i) as [nd|] eqn:Hi; [|done]. cbn [mbind option_bind].
    destruct (read_route_of _ _ _ _) as [[|j]|] eqn:Er; try done. case_decide as Ej.
    + subst j. intros [= <- <-]. by eapply b_serve.
    + destruct (marshal_read rq) as [b2|] eqn:Em; [|done]. cbn [mbind option_bind]. intros [= <- <-]. by eapply b_hop.
  - destruct (cs !! n) as [[|[|i path] [x|]]|] eqn:En; try done. destruct (carried x) as [x'|] eqn:Ec; [|done]. cbn [mbind option_bind].
    destruct (unmarshal_read_response x') as [batch|] eqn:Eu; [|done]. cbn [mbind option_bind]. intros [= <- <-]. by eapply b_back.
  - destruct (cs !! n) as [[|[|i path] a]|] eqn:En; try done. intros [= <- <-]. by apply b_give.
Qed.

Fixpoint bplay (done_ : list bevent) (c : bcluster) (ds : list btodo) : option (list bevent * bcluster) :=
  match ds with [] => Some (done_, c) | d :: ds' => '(ev, c') ← bplay1 c d; bplay (done_ ++ [ev]) c' ds' end.
Lemma bplay_ok c0 ds : forall tr c tr' c', bruns grow nils addrs hash compile c0 tr c -> bplay tr c ds = Some (tr', c') ->
  bruns grow nils addrs hash compile c0 tr' c'.
Proof.
  induction ds as [|d ds IH]; intros tr c tr' c' Hr; cbn [bplay]; [by intros [= <- <-]|].
  destruct (bplay1 c d) as [[ev c1]|] eqn:E; [|done]. cbn [mbind option_bind]. apply IH. eapply bruns_snoc; [exact Hr|]. by eapply bplay1_ok.
Qed.
End play.
