(** The proxy's goroutines: one per request, one per background key refresh, and the cache pruner,
    interleaving at every effect of Auth/Model.v. *)
From Coq Require Import Ascii String.
From stdpp Require Import prelude gmap strings list.
From Verif.Base Require Import Str Url.
From Verif.Promql Require Import Model.
From Verif.Auth Require Import Model.
Open Scope string_scope.
Open Scope list_scope.
Open Scope Z_scope.

Arguments Ret {_ _}.
Arguments Panic {_ _}.
Arguments Tau {_ _}.
Arguments Vis {_ _ _}.
Arguments bind {_ _ _}.
Arguments do {_ _}.
Arguments loop {_ _ _}.
Arguments forever {_ _ _}.
Arguments Now {_}. Arguments UaaGet {_}. Arguments CapiGet {_}. Arguments MetaGet {_}.
Arguments KeyLoad {_}. Arguments KeyStore {_}. Arguments KeyRange {_}. Arguments KeyDelete {_}.
Arguments LastLoad {_}. Arguments LastCas {_}.
Arguments CacheLoad {_}. Arguments CacheStore {_}. Arguments CacheRange {_}. Arguments CacheDelete {_}.
Arguments Order {_}. Arguments Spawn {_}.
Arguments Status {_}. Arguments Redirect {_}. Arguments BadData {_}. Arguments Forward {_}. Arguments MetaBody {_}.

Section System.
Context (L : lib) (C : config).

(** What happened: an effect and its result *)
Inductive act :=
| ANow (t : Z)
| AUaa (r : option reply)
| ACapi (u : url) (token : string) (r : option reply)
| AMeta (m : option (gmap string (meta_info L)))
| AKeyLoad (kid : string) (k : option (key L))
| AKeyStore (kid : string) (k : key L)
| AKeyRange (kids : list string)
| AKeyDelete (kid : string)
| ALastLoad (t : Z)
| ALastCas (old new : Z) (ok : bool)
| ACacheLoad (token : string) (e : option entry)
| ACacheStore (token : string) (e : entry)
| ACacheRange (es : list (string * entry))
| ACacheDelete (token : string)
| AOrder (s : gset string) (l : list string)
| ASpawn.
Definition act_of {X} (e : eff L X) : X -> act :=
  match e with
  | Now => ANow
  | UaaGet => AUaa
  | CapiGet u token => ACapi u token
  | MetaGet => AMeta
  | KeyLoad kid => AKeyLoad kid
  | KeyStore kid k => fun _ => AKeyStore kid k
  | KeyRange => AKeyRange
  | KeyDelete kid => fun _ => AKeyDelete kid
  | LastLoad => ALastLoad
  | LastCas old new => ALastCas old new
  | CacheLoad token => ACacheLoad token
  | CacheStore token e => fun _ => ACacheStore token e
  | CacheRange => ACacheRange
  | CacheDelete token => fun _ => ACacheDelete token
  | Order s => AOrder s
  | Spawn => fun _ => ASpawn
  end.

(** The shared state: uaa_client.go:33-40 publicKeys and lastQueryTime, capi_client.go:21-32
    tokenCache; and the clock *)
Record mem := Mem {
  m_keys : gmap string (key L); m_last : Z; m_cache : gmap string entry; m_clock : Z }.

(** The result of an effect and the state after it.  The clock does not run backwards; UAA, CAPI and the
    backend may answer anything; a Go map is iterated in any order. *)
Definition sem {X} (e : eff L X) (m : mem) : X -> mem -> Prop :=
  match e in eff _ X return X -> mem -> Prop with
  | Now => fun t m' => m_clock m <= t /\ m' = Mem (m_keys m) (m_last m) (m_cache m) t
  | UaaGet => fun _ m' => m' = m
  | CapiGet _ _ => fun _ m' => m' = m
  | MetaGet => fun _ m' => m' = m
  | KeyLoad kid => fun k m' => k = m_keys m !! kid /\ m' = m
  | KeyStore kid k => fun _ m' => m' = Mem (<[kid := k]> (m_keys m)) (m_last m) (m_cache m) (m_clock m)
  | KeyRange => fun kids m' => kids ≡ₚ (map_to_list (m_keys m)).*1 /\ m' = m
  | KeyDelete kid => fun _ m' => m' = Mem (delete kid (m_keys m)) (m_last m) (m_cache m) (m_clock m)
  | LastLoad => fun t m' => t = m_last m /\ m' = m
  | LastCas old new => fun ok m' =>
      ok = bool_decide (m_last m = old) /\
      m' = if (ok : bool) then Mem (m_keys m) new (m_cache m) (m_clock m) else m
  | CacheLoad token => fun e m' => e = m_cache m !! token /\ m' = m
  | CacheStore token e => fun _ m' => m' = Mem (m_keys m) (m_last m) (<[token := e]> (m_cache m)) (m_clock m)
  | CacheRange => fun es m' => es ≡ₚ map_to_list (m_cache m) /\ m' = m
  | CacheDelete token => fun _ m' => m' = Mem (m_keys m) (m_last m) (delete token (m_cache m)) (m_clock m)
  | Order s => fun l m' => l ≡ₚ elements s /\ m' = m
  | Spawn => fun _ m' => m' = m
  end.

(** A goroutine: what it was started for, and what remains of it: an HTTP request, a call of the API
    functions IsAuthorized or Read by anyone, a background refresh, the pruner. *)
Inductive kind :=
| KServe (r : request)
| KAuthorize (id token : string)
| KRead (token : string)
| KRefresh
| KPrune.
Inductive result := RHttp (o : outcome L) | RBool (b : bool) | RUser (u : option user) | RNone.
Definition thread := (kind * prog L result)%type.
Definition start (k : kind) : prog L result :=
  match k with
  | KServe r => bind (serve L C r) (fun o => Ret (RHttp o))
  | KAuthorize id token => bind (is_authorized L C id token) (fun b => Ret (RBool b))
  | KRead token => bind (uaa_read L C token) (fun u => Ret (RUser u))
  | KRefresh => bind (refresh L C) (fun _ => Ret RNone)
  | KPrune => bind (forever (prune_step L) tt) (fun x : Empty_set => match x with end)
  end.
Definition spawned {X} (e : eff L X) : list thread :=
  match e with Spawn => [(KRefresh, start KRefresh)] | _ => [] end.

Record sys := Sys { s_mem : mem; s_threads : list thread; s_log : list (nat * act) }.

(** main.go:48-52 refreshes the keys before it starts serving, capi_client.go:61 starts the pruner.  Here
    requests may arrive before the first refresh is over, which allows more, not fewer, executions. *)
Definition initial (clock : Z) : sys :=
  Sys (Mem ∅ 0 ∅ clock) [(KRefresh, start KRefresh); (KPrune, start KPrune)] [].

Inductive step : sys -> sys -> Prop :=
| step_arrive m ts h kd : kd <> KPrune -> step (Sys m ts h) (Sys m (ts ++ [(kd, start kd)]) h)
| step_tau m ts h i kd p : ts !! i = Some (kd, Tau p) -> step (Sys m ts h) (Sys m (<[i := (kd, p)]> ts) h)
| step_act m ts h i kd X (e : eff L X) k x m' :
    ts !! i = Some (kd, Vis e k) -> sem e m x m' ->
    step (Sys m ts h) (Sys m' (<[i := (kd, k x)]> ts ++ spawned e) (h ++ [(i, act_of e x)])).

Inductive reachable (clock : Z) : sys -> Prop :=
| reach_init : reachable clock (initial clock)
| reach_step s s' : reachable clock s -> step s s' -> reachable clock s'.

(** The moment goroutine i, started as kd, gets its result o: the system has just reached s *)
Definition finishes (clock : Z) (i : nat) (kd : kind) (o : result) (s : sys) : Prop :=
  s_threads s !! i = Some (kd, Ret o) /\
  exists s0, reachable clock s0 /\ step s0 s /\ s_threads s0 !! i <> Some (kd, Ret o).

(** ** One goroutine at a time *)

(** A program run without interruption, from a state to a state, with what it did and its result; its
    background refreshes are counted, not run *)
Inductive runs {A} : prog L A -> mem -> list act -> mem -> A -> Prop :=
| runs_ret a m : runs (Ret a) m [] m a
| runs_tau p m l m' a : runs p m l m' a -> runs (Tau p) m l m' a
| runs_vis X (e : eff L X) k m x m1 l m' a :
    sem e m x m1 -> runs (k x) m1 l m' a -> runs (Vis e k) m (act_of e x :: l) m' a.

(** ** One goroutine, whatever the others do *)

(** results an effect can have by itself: any, except that a map iteration visits the map's elements *)
Definition possible {X} (e : eff L X) : X -> Prop :=
  match e in eff _ X return X -> Prop with
  | Order s => fun l => l ≡ₚ elements s
  | _ => fun _ => True
  end.
(** p becomes q in at most n steps, doing l *)
Inductive tr {A} : nat -> prog L A -> list act -> prog L A -> Prop :=
| tr_nil n p : tr n p [] p
| tr_tau n p l q : tr n p l q -> tr (S n) (Tau p) l q
| tr_vis n X (e : eff L X) k x l q :
    possible e x -> tr n (k x) l q -> tr (S n) (Vis e k) (act_of e x :: l) q.

End System.
Arguments possible {_ _}.
Arguments tr {_ _}.
Arguments runs {_ _}.
Arguments act_of {_ _}.
Arguments ANow {_}. Arguments AUaa {_}. Arguments ACapi {_}. Arguments AMeta {_}. Arguments AKeyLoad {_}.
Arguments AKeyStore {_}. Arguments AKeyRange {_}. Arguments AKeyDelete {_}. Arguments ALastLoad {_}.
Arguments ALastCas {_}. Arguments ACacheLoad {_}. Arguments ACacheStore {_}. Arguments ACacheRange {_}.
Arguments ACacheDelete {_}. Arguments AOrder {_}. Arguments ASpawn {_}.
Arguments RHttp {_}. Arguments RBool {_}. Arguments RUser {_}. Arguments RNone {_}.
Arguments Mem {_}. Arguments m_keys {_}. Arguments m_last {_}. Arguments m_cache {_}. Arguments m_clock {_}.
Arguments Sys {_}. Arguments s_mem {_}. Arguments s_threads {_}. Arguments s_log {_}.
Arguments sem {_ _}.
