(** CAPI can keep a listing going for as long as it likes. *)
From Coq Require Import Ascii String.
From stdpp Require Import prelude gmap strings list.
From Verif.Base Require Import Str Url.
From Verif.Promql Require Import Model Spec.
From Verif.Auth Require Import Model System Spec Trace Local Global Run.
Open Scope string_scope.
Open Scope list_scope.
Open Scope Z_scope.

Definition again : url := Url "https" "capi" "/again" "".
Definition paging (u : url) (A : option (list resource) -> prog toy (list string)) (B : list string -> prog toy bool) : prog toy (result toy) :=
  bind (bind (bind (forever (page_step toy "t") (u, [])) A) B) (fun b => Ret (RBool b)).

Lemma go_vis a b kd X (e : eff toy X) k m x m' h : reachable toy toy_config 100 (Sys m [a; b; (kd, Vis e k)] h) ->
  sem e m x m' -> spawned toy toy_config e = [] ->
  reachable toy toy_config 100 (Sys m' [a; b; (kd, k x)] (h ++ [(2%nat, act_of e x)])).
Proof.
  intros Hr Hs He. eapply reach_step; [exact Hr|].
  assert (E : [a; b; (kd, k x)] = <[2%nat := (kd, k x)]> [a; b; (kd, Vis e k)] ++ spawned toy toy_config e) by (rewrite He; done).
  rewrite E. by eapply step_act.
Qed.
Lemma go_tau a b kd p m h : reachable toy toy_config 100 (Sys m [a; b; (kd, Tau p)] h) ->
  reachable toy toy_config 100 (Sys m [a; b; (kd, p)] h).
Proof.
  intros Hr. eapply reach_step; [exact Hr|].
  change [a; b; (kd, p)] with (<[2%nat := (kd, p)]> [a; b; (kd, Tau p)]). by apply step_tau.
Qed.
Ltac norm H := cbn beta in H; repeat first [rewrite bind_ret in H | rewrite bind_vis in H | rewrite loop_vis in H | rewrite bind_tau in H | rewrite loop_inl in H].

Lemma round A B a b kd h u : u_scheme u = "https" -> u_host u = "capi" -> reachable toy toy_config 100 (Sys empty_mem [a; b; (kd, paging u A B)] h) ->
  reachable toy toy_config 100 (Sys empty_mem [a; b; (kd, paging again A B)]
    (((h ++ [(2%nat, ANow 100)]) ++ [(2%nat, ACapi u "t" (Some (Reply 200 "more")))]) ++ [(2%nat, ANow 100)])).
Proof.
  intros E1 E2 H. unfold paging, forever, page_step at 2, do_resource_request, do_request, do in H. cbn [fst snd] in H. norm H.
  eapply (go_vis _ _ _ _ _ _ _ 100 empty_mem) in H; [|split; [cbn; lia|done]|done]. norm H.
  eapply (go_vis _ _ _ _ _ _ _ (Some (Reply 200 "more")) empty_mem) in H; [|done|done]. norm H.
  eapply (go_vis _ _ _ _ _ _ _ 100 empty_mem) in H; [|split; [cbn; lia|done]|done]. norm H.
  assert (E : page_of toy u (Some (Reply 200 "more")) = Some ([], Some again)).
  { destruct u as [sc ho pa qu]. cbn in E1, E2. subst sc ho. vm_compute. reflexivity. }
  rewrite E in H. norm H. apply go_tau in H. exact H.
Qed.

Lemma begin : exists a b A B h, reachable toy toy_config 100
    (Sys empty_mem [a; b; (KAuthorize "x" "t", paging again A B)] h).
Proof.
  pose proof (reach_step toy toy_config 100 _ _ (reach_init toy toy_config 100) (step_arrive _ _ _ _ _ (KAuthorize "x" "t") ltac:(done))) as H.
  cbn [app start] in H. unfold is_authorized, do in H. norm H.
  eapply (go_vis _ _ _ _ _ _ _ None empty_mem) in H; [|done|done]. norm H.
  unfold fetch, available in H. change (url_parse toy (append (cf_capi toy_config) "/v3/apps")) with (Some (Url "https" "capi" (append (cf_capi toy_config) "/v3/apps") "")) in H.
  cbn iota in H. eexists _, _, _, _, _. eapply round; [| |exact H]; done.
Qed.

Lemma endless_paging : exists kd i, forall n : nat, exists s p, reachable toy toy_config 100 s /\ s_threads s !! i = Some (kd, p) /\
  (forall o, p <> Ret o) /\ (n <= length (calls (own i (s_log s))))%nat.
Proof.
  destruct begin as (a & b & A & B & h & H). exists (KAuthorize "x" "t"), 2%nat. intros n.
  assert (Hn : exists h, reachable toy toy_config 100 (Sys empty_mem [a; b; (KAuthorize "x" "t", paging again A B)] h) /\ (n <= length (calls (own 2 h)))%nat).
  { induction n as [|n (h' & Hr & Hn)]; [exists h; split; [done|lia]|]. eexists. split; [apply round in Hr; [exact Hr|done|done]|].
    rewrite !own_app, !calls_app, !app_length. cbn. rewrite !decide_True by done. cbn. lia. }
  destruct Hn as (h' & Hr & Hn). eexists _, _. split; [exact Hr|]. split; [done|]. split; [|done].
  intros o E. unfold paging, forever, page_step at 2, do_resource_request, do_request, do in E.
  repeat first [rewrite bind_ret in E | rewrite bind_vis in E | rewrite loop_vis in E]. done.
Qed.
