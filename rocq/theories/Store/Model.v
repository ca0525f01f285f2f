(** Sequential model of internal/cache/store/store.go.
    One operation runs at a time (the concurrent machine is in StoreConc).
    [None] as the outcome of an operation is a Go panic. *)
From stdpp Require Import prelude gmap strings.
From Verif.Base Require Import GoInt Envelope.
From Verif.Store Require Import Avl GoHeap.
Open Scope Z_scope.

(** logcache_v1.MetaInfo *)
Record meta_info := mk_meta {
  m_count : Z; m_expired : Z; m_oldest : Z; m_newest : Z
}.
Definition meta_zero : meta_info := mk_meta 0 0 0 0.

(** store.go:507-513 type storage (the lock is not state in the sequential model) *)
Record storage := mk_storage { sg_meta : meta_info; sg_tree : avltree envelope }.

(** store.go:35-61 type Store and its Metrics.  Counters and gauges are kept as integers
    (the code converts them to float64 for reporting). *)
Record store := mk_store {
  st_index : gmap string storage;     (* storageIndex sync.Map *)
  st_count : Z;                       (* count *)
  st_oldest : Z;                      (* oldestTimestamp *)
  st_max : Z;                         (* maxPerSource *)
  st_fudge : Z;                       (* maxTimestampFudge *)
  st_ingress : Z;                     (* incIngress *)
  st_egress : Z;                      (* incEgress *)
  st_expired : Z;                     (* incExpired *)
  st_size : Z;                        (* setStoreSize *)
  st_period : Z                       (* setCachePeriod *)
}.

Definition set_index (f : gmap string storage -> gmap string storage) (s : store) : store :=
  mk_store (f (st_index s)) (st_count s) (st_oldest s) (st_max s) (st_fudge s) (st_ingress s)
    (st_egress s) (st_expired s) (st_size s) (st_period s).
Definition set_count (c : Z) (s : store) : store :=
  mk_store (st_index s) c (st_oldest s) (st_max s) (st_fudge s) (st_ingress s)
    (st_egress s) (st_expired s) (st_size s) (st_period s).
Definition set_oldest (o : Z) (s : store) : store :=
  mk_store (st_index s) (st_count s) o (st_max s) (st_fudge s) (st_ingress s)
    (st_egress s) (st_expired s) (st_size s) (st_period s).
Definition add_ingress (n : Z) (s : store) : store :=
  mk_store (st_index s) (st_count s) (st_oldest s) (st_max s) (st_fudge s) (st_ingress s + n)
    (st_egress s) (st_expired s) (st_size s) (st_period s).
Definition add_egress (n : Z) (s : store) : store :=
  mk_store (st_index s) (st_count s) (st_oldest s) (st_max s) (st_fudge s) (st_ingress s)
    (st_egress s + n) (st_expired s) (st_size s) (st_period s).
Definition add_expired (n : Z) (s : store) : store :=
  mk_store (st_index s) (st_count s) (st_oldest s) (st_max s) (st_fudge s) (st_ingress s)
    (st_egress s) (st_expired s + n) (st_size s) (st_period s).
Definition set_size (n : Z) (s : store) : store :=
  mk_store (st_index s) (st_count s) (st_oldest s) (st_max s) (st_fudge s) (st_ingress s)
    (st_egress s) (st_expired s) n (st_period s).
Definition set_period (n : Z) (s : store) : store :=
  mk_store (st_index s) (st_count s) (st_oldest s) (st_max s) (st_fudge s) (st_ingress s)
    (st_egress s) (st_expired s) (st_size s) n.

(** store.go:63-88 NewStore.  store.go:30: MIN_INT64 is in fact the largest int64.
    The truncation goroutine is the [OTruncate] operation of the histories below. *)
Definition new_store (maxPerSource : Z) : store :=
  mk_store ∅ 0 max_int64 maxPerSource 4000 0 0 0 0 0.

(** store.go:540-542 calculateCachePeriod; [now] is time.Now().UnixNano() *)
Definition cache_period (now oldest : Z) : Z := Z.quot (wrap64 (now - oldest)) 1000000.

(** store.go:90-108 getOrInitializeStorage *)
Definition get_or_init (src : string) (s : store) : store * storage :=
  match st_index s !! src with
  | Some sg => (s, sg)
  | None => let sg := mk_storage meta_zero avl_new in (set_index (<[src := sg]>) s, sg)
  end.

(** store.go:125-132 the collision loop; [n] iterations remain, [f] is timestampFudge *)
Fixpoint find_fudge (n : nat) (f ts : Z) (t : avltree envelope) : Z :=
  match n with
  | O => f
  | S n' => match avl_get (wrap64 (ts + f)) t with
            | None => f
            | Some _ => find_fudge n' (f + 1) ts t
            end
  end.

(** store.go:110-151 insertOrSwap *)
Definition insert_or_swap (src : string) (sg : storage) (e : envelope) (now : Z) (s : store)
  : option store :=
  (* 115-123 *)
  '(sg1, s1) ←
    (if st_max s <=? av_size (sg_tree sg) then
       '(k, _) ← avl_left (sg_tree sg);
       t ← avl_remove k (sg_tree sg);
       let m := sg_meta sg in
       Some (mk_storage (mk_meta (m_count m) (m_expired m + 1) (m_oldest m) (m_newest m)) t,
             add_expired 1 s)
     else
       let c := wrap64 (st_count s + 1) in
       Some (sg, set_size c (set_count c s)));
  (* 125-134 *)
  let f := find_fudge (Z.to_nat (st_fudge s)) 0 (e_ts e) (sg_tree sg1) in
  t2 ← avl_put (wrap64 (e_ts e + f)) e (sg_tree sg1);
  (* 136-138 *)
  let m1 := sg_meta sg1 in
  let newest := if m_newest m1 <? e_ts e then e_ts e else m_newest m1 in
  (* 140-141 *)
  '(oldest, _) ← avl_left t2;
  let sg2 := mk_storage (mk_meta (m_count m1) (m_expired m1) oldest newest) t2 in
  (* 142-150 *)
  let so := if oldest <? st_oldest s1 then oldest else st_oldest s1 in
  Some (set_period (cache_period now so) (set_oldest so (set_index (<[src := sg2]>) s1))).

(** store.go:181-186 Put *)
Definition put_env (e : envelope) (src : string) (now : Z) (s : store) : option store :=
  let s0 := add_ingress 1 s in
  let '(s1, sg) := get_or_init src s0 in
  insert_or_swap src sg e now s1.

(** store.go:517-521 storageExpiration.  In sequential use the tree pointer is always the storage
    currently indexed under sourceId, so it is not kept. *)
Notation expiration := (Z * string)%type.

(** sync.Map.Range visits every key once in an unspecified order.  [pri] is an arbitrary list of
    source ids that decides the order: keys in [pri] first, then the others.  Every permutation of
    the keys is obtained from some [pri]. *)
Definition range_order (pri : list string) (m : gmap string storage) : list (string * storage) :=
  omap (fun k => sg ← m !! k; Some (k, sg)) (remove_dups pri) ++
  filter (fun p => p.1 ∉ pri) (map_to_list m).

(** store.go:188-202 BuildExpirationHeap; Left() of an empty tree is a nil dereference *)
Fixpoint build_heap (l : list (string * storage)) (h : list expiration) : option (list expiration) :=
  match l with
  | [] => Some h
  | (src, sg) :: l' =>
      '(k, _) ← avl_left (sg_tree sg);
      build_heap l' (heap_push fst h (k, src))
  end.

(** store.go:253-280 removeOldestEnvelope, for the storage indexed under [src] *)
Definition remove_oldest (src : string) (s : store) : option (store * option Z) :=
  sg ← st_index s !! src;
  if av_size (sg_tree sg) =? 0 then Some (s, None)
  else
    let s1 := add_expired 1 (set_count (wrap64 (st_count s - 1)) s) in
    '(k, _) ← avl_left (sg_tree sg);
    t ← avl_remove k (sg_tree sg);
    if av_size t =? 0 then Some (set_index (delete src) s1, None)
    else
      '(k', _) ← avl_left t;
      let m := sg_meta sg in
      let sg' := mk_storage (mk_meta (m_count m) (m_expired m + 1) k' (m_newest m)) t in
      Some (set_index (<[src := sg']>) s1, Some k').

(** store.go:223-229 the pruning loop *)
Fixpoint prune_loop (n : nat) (h : list expiration) (s : store) : option (store * list expiration) :=
  match n with
  | O => Some (s, h)
  | S n' =>
      '((_, src), h1) ← heap_pop fst h;
      '(s1, next) ← remove_oldest src s;
      match next with
      | Some k => prune_loop n' (heap_push fst h1 (k, src)) s1
      | None => prune_loop n' h1 s1
      end
  end.

(** store.go:205-251 truncate; [q] is the answer of GetQuantityToPrune(count) *)
Definition truncate (q : Z) (pri : list string) (now : Z) (s : store) : option store :=
  if q =? 0 then Some s
  else
    let q' := if st_count s <? q then st_count s else q in
    h ← build_heap (range_order pri (st_index s)) [];
    '(s1, h1) ← prune_loop (Z.to_nat q') h s;
    let s2 := set_size (st_count s1) s1 in
    match h1 with
    | [] => Some (set_period 0 (set_oldest max_int64 s2))
    | _ => '((ts, _), _) ← raw_pop h1;
           Some (set_period (cache_period now ts) (set_oldest ts s2))
    end.

(** store.go:325-370 filterByName; regexp.MatchString of the filter is the function [m] *)
Definition filter_by_name (nf : option (string -> bool)) (e : envelope) : option envelope :=
  match nf with
  | None => Some e
  | Some m =>
      match e_msg e with
      | MCounter name _ _ => if m name then Some e else None
      | MGauge ms =>
          let ms' := filter (fun p => m p.1 = true) ms in
          if bool_decide (ms' = ∅) then None
          else Some (mk_env (e_ts e) (e_source e) (e_instance e) (e_deprecated_tags e) (e_tags e)
                       (MGauge ms'))
      | MTimer name _ _ => if m name then Some e else None
      | _ => None
      end
  end.

(** store.go:459-480 checkEnvelopeType; None is panic("unknown type") *)
Definition check_type (e : envelope) (t : etype) : option bool :=
  match t with
  | T_ANY => Some true
  | T_LOG => Some (match e_msg e with MLog _ _ => true | _ => false end)
  | T_COUNTER => Some (match e_msg e with MCounter _ _ _ => true | _ => false end)
  | T_GAUGE => Some (match e_msg e with MGauge _ => true | _ => false end)
  | T_TIMER => Some (match e_msg e with MTimer _ _ _ => true | _ => false end)
  | T_EVENT => Some (match e_msg e with MEvent _ _ => true | _ => false end)
  | T_UNKNOWN _ => None
  end.

(** store.go:372-382 validEnvelopeType; [None] as types is the nil slice *)
Fixpoint valid_type_list (e : envelope) (ts : list etype) : option bool :=
  match ts with
  | [] => Some false
  | t :: ts' => b ← check_type e t; if (b : bool) then Some true else valid_type_list e ts'
  end.
Definition valid_type (e : envelope) (types : option (list etype)) : option bool :=
  match types with None => Some true | Some ts => valid_type_list e ts end.

(** store.go:307-319 the visitor passed to the traversals, on the accumulated result *)
Definition visit (types : option (list etype)) (nf : option (string -> bool)) (limit : Z)
    (res : list envelope) (e : envelope) : option (list envelope * bool) :=
  match filter_by_name nf e with
  | None => Some (res, false)
  | Some e' =>
      ok ← valid_type e' types;
      let res' := if (ok : bool) then res ++ [e'] else res in
      Some (res', limit <=? Z.of_nat (length res'))
  end.

(** store.go:410-431 isNodeAFudgeSequenceMember, for the node with key k, value e and the given
    next child *)
Definition fudge_member (k : Z) (e : envelope) (next : tree envelope) : bool :=
  negb (e_ts e =? k) ||
  match next with
  | Leaf => false
  | Node _ k' e' _ _ => negb (e_ts e' =? k')
  end.

Section traverse.
Context (start stop : Z) (f : list envelope -> envelope -> option (list envelope * bool)).

(** store.go:384-408 treeAscTraverse; the boolean is the function's result (stop) *)
Fixpoint tree_asc (n : tree envelope) (res : list envelope) : option (list envelope * bool) :=
  match n with
  | Leaf => Some (res, false)
  | Node _ k e l r =>
      if start <=? e_ts e then
        '(res1, b1) ← tree_asc l res;
        if (b1 : bool) then Some (res1, true)
        else
          '(res2, b2) ← (if stop <=? e_ts e then Some (res1, true) else f res1 e);
          if (b2 : bool) && negb (fudge_member k e r) then Some (res2, true)
          else tree_asc r res2
      else tree_asc r res
  end.

(** store.go:433-457 treeDescTraverse *)
Fixpoint tree_desc (n : tree envelope) (res : list envelope) : option (list envelope * bool) :=
  match n with
  | Leaf => Some (res, false)
  | Node _ k e l r =>
      if e_ts e <? stop then
        '(res1, b1) ← tree_desc r res;
        if (b1 : bool) then Some (res1, true)
        else
          '(res2, b2) ← (if e_ts e <? start then Some (res1, true) else f res1 e);
          if (b2 : bool) && negb (fudge_member k e l) then Some (res2, true)
          else tree_desc l res2
      else tree_desc l res
  end.
End traverse.

(** store.go:284-323 Get: arguments of the query *)
Record query := mk_query {
  q_start : Z; q_end : Z;
  q_types : option (list etype);
  q_name : option (string -> bool);
  q_limit : Z;
  q_desc : bool
}.

(** store.go:284-323 Get without the egress counter *)
Definition get_env (src : string) (q : query) (s : store) : option (list envelope) :=
  match st_index s !! src with
  | None => Some []
  | Some sg =>
      let f := visit (q_types q) (q_name q) (q_limit q) in
      '(res, _) ← (if q_desc q then tree_desc (q_start q) (q_end q) f (av_root (sg_tree sg)) []
                   else tree_asc (q_start q) (q_end q) f (av_root (sg_tree sg)) []);
      Some res
  end.

(** store.go:483-505 Meta *)
Definition meta (s : store) : gmap string meta_info :=
  (fun sg => let m := sg_meta sg in
             mk_meta (av_size (sg_tree sg)) (m_expired m) (m_oldest m) (m_newest m)) <$> st_index s.

(** ** Histories *)

(** One call into the store.  [OTruncate q pri now] is one tick of truncationLoop (store.go:166-179)
    for which the consultant answers q. *)
Inductive op :=
| OPut (e : envelope) (src : string) (now : Z)
| OTruncate (q : Z) (pri : list string) (now : Z)
| OGet (src : string) (q : query)
| OMeta.

Definition step (s : store) (o : op) : option store :=
  match o with
  | OPut e src now => put_env e src now s
  | OTruncate q pri now => truncate q pri now s
  | OGet src q => res ← get_env src q s; Some (add_egress (Z.of_nat (length res)) s)
  | OMeta => Some s
  end.

Fixpoint run (s : store) (ops : list op) : option store :=
  match ops with
  | [] => Some s
  | o :: ops' => s' ← step s o; run s' ops'
  end.
