(** Concurrent model of internal/cache/store/store.go: any number of calls run at the same time and
    are interleaved step by step.  A step is one access to shared state that other goroutines can
    observe: taking a lock, an access to the sync.Map, an atomic addition, or one stretch of code under
    the storage's lock.  What a stretch of code under a lock does to the storage is one step because
    every access to a storage's tree and meta is made under its lock.
    Left out: oldestTimestamp and the metrics other than expired and ingress (the cache-period clock);
    Go's rule that a waiting writer blocks new readers (it only removes schedules). *)
From stdpp Require Import prelude gmap strings.
From Verif.Base Require Import GoInt Envelope.
From Verif.Store Require Import Avl GoHeap Model.
Open Scope Z_scope.

(** store.go:507-513 storage, with the state of its RWMutex: the goroutine holding the write lock and
    the goroutines holding read locks *)
Record cstorage := mk_cs {
  cs_tree : avltree envelope; cs_meta : meta_info;
  cs_writer : option nat; cs_readers : gset nat }.

(** store.go:35-61 Store; storages live in [sh_heap] and are known by address *)
Record shared := mk_sh {
  sh_heap : gmap nat cstorage; sh_next : nat;
  sh_index : gmap string nat;              (* storageIndex *)
  sh_init : option nat;                    (* holder of initializationMutex *)
  sh_count : Z; sh_expired : Z; sh_ingress : Z;
  sh_max : Z }.

(** heap entries: storage time, source id, storage (store.go:517-521) *)
Notation centry := (Z * (string * nat))%type.

(** A call in progress.  Comments: the code that runs next. *)
Inductive thread :=
| PStart (e : envelope) (src : string)                     (* 182, 93: count ingress, lock initializationMutex *)
| PInit (e : envelope) (src : string)                      (* 96: Load *)
| PMiss (e : envelope) (src : string)                      (* 99-103: new storage, Store *)
| PWait (e : envelope) (src : string) (a : nat)            (* 111: Lock *)
| PIn (e : envelope) (src : string) (a : nat)              (* 115-123 *)
| PRoom (e : envelope) (src : string) (a : nat)            (* 125-141, Unlock *)
| PDone (e : envelope) (src : string)
| GStart (src : string) (q : query)                        (* 293: Load *)
| GWait (src : string) (q : query) (a : nat)               (* 298: RLock *)
| GIn (src : string) (q : query) (a : nat) (t0 : avltree envelope)  (* 301-322, RUnlock; t0: the tree when locked *)
| GDone (src : string) (q : query) (res : list envelope)
| MStart                                                   (* 486: Range begins *)
| MRange (must : gmap string nat) (visited : list string) (rep : gmap string meta_info)  (* 486: next key *)
| MRead (must : gmap string nat) (visited : list string) (rep : gmap string meta_info) (k : string) (a : nat) (* 487-489 *)
| MFill (todo : list string) (rep : gmap string meta_info) (* 497: Load *)
| MSize (todo : list string) (rep : gmap string meta_info) (k : string) (a : nat)  (* 499-502 *)
| MDone (rep : gmap string meta_info)
| TStart                                                   (* 206-218 *)
| TRange (n : nat) (must : gmap string nat) (visited : list string) (h : list centry)   (* 192: next key *)
| TPush (n : nat) (must : gmap string nat) (visited : list string) (h : list centry) (k : string) (a : nat) (* 193-196 *)
| TLoop (n : nat) (h : list centry)                        (* 223-224 *)
| TWait (n : nat) (h : list centry) (src : string) (a : nat)     (* 254: Lock *)
| TIn (n : nat) (h : list centry) (src : string) (a : nat)       (* 257-262 *)
| TCounted (n : nat) (h : list centry) (src : string) (a : nat)  (* 264-279 *)
| TDel (n : nat) (h : list centry) (src : string) (a : nat)      (* 269: Delete, Unlock *)
| TDone
| Panicked.

Definition set_heap (f : gmap nat cstorage -> gmap nat cstorage) (s : shared) : shared :=
  mk_sh (f (sh_heap s)) (sh_next s) (sh_index s) (sh_init s) (sh_count s) (sh_expired s) (sh_ingress s) (sh_max s).
Definition set_idx (f : gmap string nat -> gmap string nat) (s : shared) : shared :=
  mk_sh (sh_heap s) (sh_next s) (f (sh_index s)) (sh_init s) (sh_count s) (sh_expired s) (sh_ingress s) (sh_max s).
Definition set_init (o : option nat) (s : shared) : shared :=
  mk_sh (sh_heap s) (sh_next s) (sh_index s) o (sh_count s) (sh_expired s) (sh_ingress s) (sh_max s).
Definition add_count (d : Z) (s : shared) : shared :=
  mk_sh (sh_heap s) (sh_next s) (sh_index s) (sh_init s) (wrap64 (sh_count s + d)) (sh_expired s) (sh_ingress s) (sh_max s).
Definition add_exp (s : shared) : shared :=
  mk_sh (sh_heap s) (sh_next s) (sh_index s) (sh_init s) (sh_count s) (sh_expired s + 1) (sh_ingress s) (sh_max s).
Definition add_ing (s : shared) : shared :=
  mk_sh (sh_heap s) (sh_next s) (sh_index s) (sh_init s) (sh_count s) (sh_expired s) (sh_ingress s + 1) (sh_max s).

(** sync.RWMutex Lock / RLock: [None] means blocked *)
Definition lock (tid : nat) (sg : cstorage) : option cstorage :=
  match cs_writer sg with
  | None => if decide (cs_readers sg = ∅) then Some (mk_cs (cs_tree sg) (cs_meta sg) (Some tid) ∅) else None
  | Some _ => None
  end.
Definition rlock (tid : nat) (sg : cstorage) : option cstorage :=
  match cs_writer sg with
  | None => Some (mk_cs (cs_tree sg) (cs_meta sg) None ({[tid]} ∪ cs_readers sg))
  | Some _ => None
  end.
Definition runlock (tid : nat) (sg : cstorage) : cstorage :=
  mk_cs (cs_tree sg) (cs_meta sg) (cs_writer sg) (cs_readers sg ∖ {[tid]}).

(** store.go:301-322 the traversal of Get *)
Definition get_tree (q : query) (t : avltree envelope) : option (list envelope) :=
  let f := visit (q_types q) (q_name q) (q_limit q) in
  '(res, _) ← (if q_desc q then tree_desc (q_start q) (q_end q) f (av_root t) []
               else tree_asc (q_start q) (q_end q) f (av_root t) []);
  Some res.

(** What the environment decides: the next key a Range visits (None: the Range ends), the answer of
    GetQuantityToPrune, and the order in which Go iterates over the local map in Meta *)
Record choice := mk_choice { ch_key : option string; ch_q : Z; ch_order : list string }.

(** sync.Map.Range: a key is visited at most once, with the value it has when visited; keys that keep
    their value during the Range are visited; the others may be skipped.  [must]: the map when the
    Range began. *)
Definition may_end (must idx : gmap string nat) (visited : list string) : bool :=
  bool_decide (map_Forall (fun k a => k ∈ visited ∨ idx !! k ≠ Some a) must).
(** Iteration order over the keys of a local map: any order *)
Definition key_order (ord : list string) (m : gmap string meta_info) : list string :=
  filter (fun k => is_Some (m !! k)) (remove_dups ord) ++
  filter (fun k => k ∉ ord) (map_to_list m).*1.

(** One step of goroutine [tid]; [None]: it cannot step (blocked, finished, or the choice is not possible) *)
Definition tstep (tid : nat) (ch : choice) (s : shared) (th : thread) : option (shared * thread) :=
  match th with
  (* Put: store.go:181-186, getOrInitializeStorage 90-108 *)
  | PStart e src =>
      match sh_init s with
      | None => Some (set_init (Some tid) (add_ing s), PInit e src)
      | Some _ => None
      end
  | PInit e src =>
      match sh_index s !! src with
      | Some a => Some (set_init None s, PWait e src a)
      | None => Some (s, PMiss e src)
      end
  | PMiss e src =>
      let a := sh_next s in
      Some (mk_sh (<[a := mk_cs avl_new meta_zero None ∅]> (sh_heap s)) (S a) (<[src := a]> (sh_index s)) None
              (sh_count s) (sh_expired s) (sh_ingress s) (sh_max s),
            PWait e src a)
  (* insertOrSwap 110-151 *)
  | PWait e src a =>
      sg ← sh_heap s !! a; sg' ← lock tid sg;
      Some (set_heap (<[a := sg']>) s, PIn e src a)
  | PIn e src a =>
      sg ← sh_heap s !! a;
      if sh_max s <=? av_size (cs_tree sg) then
        match ('(k, _) ← avl_left (cs_tree sg); avl_remove k (cs_tree sg)) with
        | None => Some (s, Panicked)
        | Some t =>
            let m := cs_meta sg in
            Some (add_exp (set_heap (<[a := mk_cs t (mk_meta (m_count m) (m_expired m + 1) (m_oldest m) (m_newest m))
                                              (cs_writer sg) (cs_readers sg)]>) s), PRoom e src a)
        end
      else Some (add_count 1 s, PRoom e src a)
  | PRoom e src a =>
      sg ← sh_heap s !! a;
      let f := find_fudge (Z.to_nat 4000) 0 (e_ts e) (cs_tree sg) in
      match (t ← avl_put (wrap64 (e_ts e + f)) e (cs_tree sg); '(oldest, _) ← avl_left t; Some (t, oldest)) with
      | None => Some (s, Panicked)
      | Some (t, oldest) =>
          let m := cs_meta sg in
          let newest := if m_newest m <? e_ts e then e_ts e else m_newest m in
          Some (set_heap (<[a := mk_cs t (mk_meta (m_count m) (m_expired m) oldest newest) None (cs_readers sg)]>) s,
                PDone e src)
      end
  | PDone _ _ => None
  (* Get: store.go:284-323 *)
  | GStart src q =>
      match sh_index s !! src with
      | Some a => Some (s, GWait src q a)
      | None => Some (s, GDone src q [])
      end
  | GWait src q a =>
      sg ← sh_heap s !! a; sg' ← rlock tid sg;
      Some (set_heap (<[a := sg']>) s, GIn src q a (cs_tree sg))
  | GIn src q a _ =>
      sg ← sh_heap s !! a;
      match get_tree q (cs_tree sg) with
      | None => Some (s, Panicked)
      | Some res => Some (set_heap (<[a := runlock tid sg]>) s, GDone src q res)
      end
  | GDone _ _ _ => None
  (* Meta: store.go:483-505 *)
  | MStart => Some (s, MRange (sh_index s) [] ∅)
  | MRange must visited rep =>
      match ch_key ch with
      | Some k => if decide (k ∈ visited) then None
                  else a ← sh_index s !! k; Some (s, MRead must (k :: visited) rep k a)
      | None => if may_end must (sh_index s) visited then Some (s, MFill (key_order (ch_order ch) rep) rep) else None
      end
  | MRead must visited rep k a =>
      sg ← sh_heap s !! a;
      match cs_writer sg with
      | Some _ => None
      | None => Some (s, MRange must visited (<[k := cs_meta sg]> rep))
      end
  | MFill todo rep =>
      match todo with
      | [] => Some (s, MDone rep)
      | k :: todo' => match sh_index s !! k with
                      | None => Some (s, Panicked)
                      | Some a => Some (s, MSize todo' rep k a)
                      end
      end
  | MSize todo rep k a =>
      sg ← sh_heap s !! a;
      match cs_writer sg with
      | Some _ => None
      | None =>
          let m := default meta_zero (rep !! k) in
          Some (s, MFill todo (<[k := mk_meta (av_size (cs_tree sg)) (m_expired m) (m_oldest m) (m_newest m)]> rep))
      end
  | MDone _ => None
  (* truncate: store.go:205-251 *)
  | TStart =>
      if ch_q ch =? 0 then Some (s, TDone)
      else
        let n := if sh_count s <? ch_q ch then sh_count s else ch_q ch in
        Some (s, TRange (Z.to_nat n) (sh_index s) [] [])
  (* BuildExpirationHeap 188-202 *)
  | TRange n must visited h =>
      match ch_key ch with
      | Some k => if decide (k ∈ visited) then None
                  else a ← sh_index s !! k; Some (s, TPush n must (k :: visited) h k a)
      | None => if may_end must (sh_index s) visited then Some (s, TLoop n h) else None
      end
  | TPush n must visited h k a =>
      sg ← sh_heap s !! a;
      match cs_writer sg with
      | Some _ => None
      | None => match avl_left (cs_tree sg) with
                | None => Some (s, Panicked)
                | Some (key, _) => Some (s, TRange n must visited (heap_push fst h (key, (k, a))))
                end
      end
  | TLoop n h =>
      match n with
      | O => Some (s, TDone)
      | S n' => match heap_pop fst h with
                | None => Some (s, Panicked)
                | Some ((_, (src, a)), h') => Some (s, TWait n' h' src a)
                end
      end
  (* removeOldestEnvelope 253-280 *)
  | TWait n h src a =>
      sg ← sh_heap s !! a; sg' ← lock tid sg;
      Some (set_heap (<[a := sg']>) s, TIn n h src a)
  | TIn n h src a =>
      sg ← sh_heap s !! a;
      if av_size (cs_tree sg) =? 0
      then Some (set_heap (<[a := mk_cs (cs_tree sg) (cs_meta sg) None (cs_readers sg)]>) s, TLoop n h)
      else Some (add_exp (add_count (-1) s), TCounted n h src a)
  | TCounted n h src a =>
      sg ← sh_heap s !! a;
      match ('(k, _) ← avl_left (cs_tree sg); avl_remove k (cs_tree sg)) with
      | None => Some (s, Panicked)
      | Some t =>
          if av_size t =? 0
          then Some (set_heap (<[a := mk_cs t (cs_meta sg) (cs_writer sg) (cs_readers sg)]>) s, TDel n h src a)
          else match avl_left t with
               | None => Some (s, Panicked)
               | Some (k', _) =>
                   let m := cs_meta sg in
                   Some (set_heap (<[a := mk_cs t (mk_meta (m_count m) (m_expired m + 1) k' (m_newest m)) None (cs_readers sg)]>) s,
                         TLoop n (heap_push fst h (k', (src, a))))
               end
      end
  | TDel n h src a =>
      sg ← sh_heap s !! a;
      Some (set_heap (<[a := mk_cs (cs_tree sg) (cs_meta sg) None (cs_readers sg)]>) (set_idx (delete src) s), TLoop n h)
  | TDone => None
  | Panicked => None
  end.

(** A call of the store; CTruncate is one tick of truncationLoop (store.go:166-179) *)
Inductive call := CPut (e : envelope) (src : string) | CGet (src : string) (q : query) | CMeta | CTruncate.
Definition start_of (c : call) : thread :=
  match c with CPut e src => PStart e src | CGet src q => GStart src q | CMeta => MStart | CTruncate => TStart end.

(** The whole program: shared state and calls made so far, finished or not *)
Record config := mk_cfg { cf_sh : shared; cf_threads : list thread }.
Definition new_shared (m : Z) : shared := mk_sh ∅ 0 ∅ None 0 0 0 m.
Definition initial (m : Z) : config := mk_cfg (new_shared m) [].

(** One event of a schedule: a new call is made, or a call makes a step *)
Inductive label := LCall (c : call) | LStep (tid : nat) (ch : choice).
Definition is_panicked (th : thread) : bool := match th with Panicked => true | _ => false end.
(** A panic in any goroutine ends the process: nothing happens afterwards *)
Definition cstep (c : config) (l : label) : option config :=
  if existsb is_panicked (cf_threads c) then None
  else
    match l with
    | LCall x => Some (mk_cfg (cf_sh c) (cf_threads c ++ [start_of x]))
    | LStep tid ch =>
        th ← cf_threads c !! tid;
        '(s', th') ← tstep tid ch (cf_sh c) th;
        Some (mk_cfg s' (<[tid := th']> (cf_threads c)))
    end.
Fixpoint crun (c : config) (ls : list label) : option config :=
  match ls with [] => Some c | l :: ls' => c' ← cstep c l; crun c' ls' end.
