(** Running the proxy: scripts which pick the goroutine to go next and what the outside answers, for
    the concrete cases beside the theorems. *)
From Coq Require Import Ascii String.
From stdpp Require Import prelude gmap strings list.
From Verif.Base Require Import Str Url.
From Verif.Promql Require Import Model Spec.
From Verif.Auth Require Import Model System Spec.
Open Scope string_scope.
Open Scope list_scope.
Open Scope Z_scope.

Section Run.
Context {L : lib} (C : config).

Inductive answer := XNone | XTime (t : Z) | XReply (r : option reply) | XMeta (m : option (gmap string (meta_info L))).
Inductive choice := Arrive (kd : kind) | Step (i : nat) (a : answer).

Definition perform {X} (e : eff L X) (m : mem L) (a : answer) : option (X * mem L) :=
  match e in eff _ X return option (X * mem L) with
  | Now => match a with
           | XTime t => if bool_decide (m_clock m <= t) then Some (t, Mem (m_keys m) (m_last m) (m_cache m) t) else None
           | _ => None end
  | UaaGet => match a with XReply r => Some (r, m) | _ => None end
  | CapiGet _ _ => match a with XReply r => Some (r, m) | _ => None end
  | MetaGet => match a with XMeta r => Some (r, m) | _ => None end
  | KeyLoad kid => Some (m_keys m !! kid, m)
  | KeyStore kid k => Some (tt, Mem (<[kid := k]> (m_keys m)) (m_last m) (m_cache m) (m_clock m))
  | KeyRange => Some ((map_to_list (m_keys m)).*1, m)
  | KeyDelete kid => Some (tt, Mem (delete kid (m_keys m)) (m_last m) (m_cache m) (m_clock m))
  | LastLoad => Some (m_last m, m)
  | LastCas old new => Some (bool_decide (m_last m = old),
      if bool_decide (m_last m = old) then Mem (m_keys m) new (m_cache m) (m_clock m) else m)
  | CacheLoad token => Some (m_cache m !! token, m)
  | CacheStore token e => Some (tt, Mem (m_keys m) (m_last m) (<[token := e]> (m_cache m)) (m_clock m))
  | CacheRange => Some (map_to_list (m_cache m), m)
  | CacheDelete token => Some (tt, Mem (m_keys m) (m_last m) (delete token (m_cache m)) (m_clock m))
  | Order s => Some (elements s, m)
  | Spawn => Some (tt, m)
  end.
Lemma perform_sem {X} (e : eff L X) m a x m' : perform e m a = Some (x, m') -> sem e m x m'.
Proof.
  destruct e; cbn;
    repeat match goal with |- context [match a with _ => _ end] => destruct a end; try done;
    try (destruct (bool_decide_reflect (m_clock m <= t)); [|done]); intros [= <- <-]; auto.
Qed.

Definition exec1 (s : sys L) (c : choice) : option (sys L) :=
  match c with
  | Arrive KPrune => None
  | Arrive kd => Some (Sys (s_mem s) (s_threads s ++ [(kd, start L C kd)]) (s_log s))
  | Step i a =>
      match s_threads s !! i with
      | Some (kd, Tau p) => Some (Sys (s_mem s) (<[i := (kd, p)]> (s_threads s)) (s_log s))
      | Some (kd, Vis e k) =>
          match perform e (s_mem s) a with
          | Some (x, m') => Some (Sys m' (<[i := (kd, k x)]> (s_threads s) ++ spawned L C e) (s_log s ++ [(i, act_of e x)]))
          | None => None
          end
      | _ => None
      end
  end.
Lemma exec1_step s c s' : exec1 s c = Some s' -> step L C s s'.
Proof.
  destruct s as [m ts h], c as [kd|i a]; cbn.
  - destruct kd; try done; intros [= <-]; by apply step_arrive.
  - destruct (ts !! i) as [[kd [| |p|X e k]]|] eqn:E; try done.
    + intros [= <-]. by apply step_tau.
    + destruct (perform e m a) as [[x m']|] eqn:Ep; [|done]. intros [= <-]. apply perform_sem in Ep.
      by eapply step_act.
Qed.
Fixpoint exec (s : sys L) (cs : list choice) : option (sys L) :=
  match cs with
  | [] => Some s
  | c :: cs => match exec1 s c with Some s => exec s cs | None => None end
  end.
Lemma exec_reachable clock cs : forall s s', reachable L C clock s -> exec s cs = Some s' -> reachable L C clock s'.
Proof.
  induction cs as [|c cs IH]; intros s s' Hs; cbn; [by intros [= <-]|].
  destruct (exec1 s c) as [s1|] eqn:E; [|done]. apply IH. eapply reach_step; [done|]. by eapply exec1_step.
Qed.

(** what became of a goroutine *)
Inductive stage := Running | Done (o : result L) | Crashed | Absent.
Definition stage_of (s : sys L) (i : nat) : stage :=
  match s_threads s !! i with
  | Some (_, Ret o) => Done o
  | Some (_, Panic) => Crashed
  | Some _ => Running
  | None => Absent
  end.
Definition kind_of (s : sys L) (i : nat) : option kind := fst <$> s_threads s !! i.

(** A script after whose last step goroutine i has its result *)
Definition script (clock : Z) (cs : list choice) (c : choice) : option (sys L * sys L) :=
  match exec (initial L C clock) cs with
  | Some s0 => match exec1 s0 c with Some s => Some (s0, s) | None => None end
  | None => None
  end.
Lemma script_finishes clock cs c s0 s i kd o : script clock cs c = Some (s0, s) ->
  stage_of s0 i = Running -> stage_of s i = Done o -> kind_of s i = Some kd -> finishes L C clock i kd o s.
Proof.
  unfold script. destruct (exec _ cs) as [s1|] eqn:E; [|done]. destruct (exec1 s1 c) as [s2|] eqn:E1; [|done].
  intros [= -> ->] H0 H Hk. split.
  - unfold stage_of, kind_of in *. destruct (s_threads s !! i) as [[kd' []]|]; try done. cbn in Hk. by simplify_eq.
  - exists s0. split; [|split].
    + eapply exec_reachable; [|done]. constructor.
    + by eapply exec1_step.
    + unfold stage_of in H0. intros E2. by rewrite E2 in H0.
Qed.

(** A program run without interruption *)
Fixpoint run_prog {A} (n : nat) (p : prog L A) (m : mem L) (xs : list answer) : option (list (act L) * mem L * A) :=
  match n with
  | O => None
  | S n =>
      match p with
      | Ret a => Some ([], m, a)
      | Panic => None
      | Tau p => run_prog n p m xs
      | Vis e k =>
          let outside := match e with Now | UaaGet | CapiGet _ _ | MetaGet => true | _ => false end in
          match perform e m (if outside then hd XNone xs else XNone) with
          | None => None
          | Some (x, m1) =>
              match run_prog n (k x) m1 (if outside then tl xs else xs) with
              | Some (l, m', a) => Some (act_of e x :: l, m', a)
              | None => None
              end
          end
      end
  end.
Lemma run_prog_runs {A} n : forall (p : prog L A) m xs l m' a, run_prog n p m xs = Some (l, m', a) -> runs p m l m' a.
Proof.
  induction n as [|n IH]; intros p m xs l m' a; [done|]. destruct p as [b| |p|X e k]; cbn [run_prog].
  - intros [= <- <- <-]. constructor.
  - done.
  - intros H. constructor. by eapply IH.
  - destruct (perform e m _) as [[x m1]|] eqn:Ep; [|done]. apply perform_sem in Ep.
    destruct (run_prog n (k x) m1 _) as [[[l1 m2] a1]|] eqn:Er; [|done]. intros [= <- <- <-].
    econstructor; [done|]. by eapply IH.
Qed.
End Run.
Arguments answer : clear implicits.
Arguments choice : clear implicits.

Global Instance reply_eq_dec : EqDecision reply.
Proof. solve_decision. Defined.
Global Instance entry_eq_dec : EqDecision entry.
Proof. solve_decision. Defined.
Global Instance user_eq_dec : EqDecision user.
Proof. solve_decision. Defined.

Global Instance request_eq_dec : EqDecision request.
Proof. solve_decision. Defined.
Global Instance kind_eq_dec : EqDecision kind.
Proof. solve_decision. Defined.
Global Instance act_eq_dec (L : lib) `{EqDecision (key L)} `{EqDecision (meta_info L)} : EqDecision (act L).
Proof. solve_decision. Defined.

Section Scripted.
Context {L : lib} (C : config).
Definition scripted (clock : Z) (cs : list (choice L)) (c : choice L) (i : nat) (kd : kind)
    (test : result L -> sys L -> bool) : bool :=
  match script C clock cs c with
  | Some (s0, s) =>
      match stage_of s0 i, stage_of s i with
      | Running, Done o => bool_decide (kind_of s i = Some kd) && test o s
      | _, _ => false
      end
  | None => false
  end.
Lemma scripted_finishes clock cs c i kd test : scripted clock cs c i kd test = true ->
  exists o s, finishes L C clock i kd o s /\ test o s = true.
Proof.
  unfold scripted. destruct (script C clock cs c) as [[s0 s]|] eqn:E; [|done].
  destruct (stage_of s0 i) eqn:E0; try done. destruct (stage_of s i) as [|o| |] eqn:E1; try done.
  intros H. apply andb_prop in H as [Hk Ht]. apply bool_decide_eq_true in Hk. exists o, s. split; [|done].
  by eapply script_finishes.
Qed.
Definition reaches (clock : Z) (cs : list (choice L)) (test : sys L -> bool) : bool :=
  match exec C (initial L C clock) cs with Some s => test s | None => false end.
Lemma reaches_ok clock cs test : reaches clock cs test = true -> exists s, reachable L C clock s /\ test s = true.
Proof.
  unfold reaches. destruct (exec C _ cs) as [s|] eqn:E; [|done]. intros H. exists s. split; [|done].
  eapply exec_reachable; [constructor|done].
Qed.
End Scripted.

(** ** A small world *)
(** keys k1 and k2; tokens good (key k1), root (key k1, admin) and others; two users' lists *)
Definition table {A} (l : list (string * A)) (s : string) : option A := (list_to_map l : gmap string A) !! s.
Definition toy_parse (s : string) : option expr :=
  match s with
  | String c v =>
      if ceqb c "=" then Some (ESelector false "" [mk_matcher "source_id" MatchEqual v])
      else if ceqb c "~" then Some (ESelector false "" [mk_matcher "source_id" MatchRegexp v])
      else None
  | EmptyString => None
  end.
Definition toy_print (e : expr) : string :=
  match e with
  | ESelector _ _ [mk_matcher _ MatchEqual v] => String "=" v
  | ESelector _ _ [mk_matcher _ MatchRegexp v] => String "~" v
  | _ => ""
  end.
Definition toy : lib := {|
  key := string;
  meta_info := Z;
  jose_headers := table [("good", (HString "RS256", HString "k1")); ("root", (HString "RS256", HString "k1"));
                         ("second", (HString "RS256", HString "k2")); ("nokid", (HString "RS256", HMissing))];
  jose_verify := fun tok k => table [("good/K1", "user"); ("root/K1", "admin"); ("second/K2", "user")] (append tok (append "/" k));
  rsa_key := table [("PEM1", "K1"); ("PEM2", "K2")];
  json_keys := table [("k1", [("k1", "PEM1")]); ("k1,k2", [("k1", "PEM1"); ("k2", "PEM2")]); ("k1,bad", [("k1", "PEM1"); ("k3", "?")])];
  json_claims := table [("user", Claims ["openid"] 1000); ("admin", Claims ["logs.admin"] 1000)];
  json_page := table [("apps1", ([Resource "app-a" "a"], "http://elsewhere/p2")); ("apps2", ([Resource "app-b" "b"], ""));
                      ("services", ([Resource "svc-c" "c"], "")); ("none", ([], "")); ("more", ([], "/again"));
                      ("pipe", ([Resource "x|secret" "x"; Resource "y" "x"], ""))];
  url_parse := fun s => Some (Url "https" "capi" s "");
  promql_parse := toy_parse;
  promql_print := toy_print;
  clean_path := id |}.
Definition toy_config : config := Config "https://capi" 30 60.
Definition ok (body : string) : answer toy := XReply (Some (Reply 200 body)).
Definition at_time (t : Z) : answer toy := XTime t.
Global Instance toy_key_eq_dec : EqDecision (key toy) := string_eq_dec.
Global Instance toy_meta_eq_dec : EqDecision (meta_info toy) := Z.eq_dec.
Definition go (i : nat) (l : list (answer toy)) : list (choice toy) := Step i <$> l.
Notation "'◦'" := XNone.
(** goroutine 0 fetches the keys *)
Definition startup : list (choice toy) := go 0 [◦; at_time 100; at_time 100; ◦; ok "k1"; ◦; ◦].
Definition page (t : Z) (body : string) : list (answer toy) := [at_time t; ok body; at_time t].
Definition listing (t : Z) : list (answer toy) := page t "apps1" ++ [◦] ++ page t "apps2" ++ page t "services".
Definition read_request (id token : string) : request := Request (append "/api/v1/read/" id) "limit=5" token.
Definition empty_mem : mem toy := Mem ∅ 0 ∅ 100.
