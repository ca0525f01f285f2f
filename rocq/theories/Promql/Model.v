(** Model of internal/promql/promql.go.  The Prometheus library (parser, printer, engine) is not part
    of the repository: expressions are trees, ParseExpr and String are parameters where they occur. *)
From Coq Require Import Ascii String.
From stdpp Require Import prelude gmap strings list sorting.
From Verif.Base Require Import GoInt Envelope Str.
Open Scope Z_scope.

(** ** Expressions *)

(** prometheus labels.MatchType and labels.Matcher *)
Inductive match_type := MatchEqual | MatchNotEqual | MatchRegexp | MatchNotRegexp.
Record matcher := mk_matcher { lm_name : string; lm_type : match_type; lm_value : string }.

Global Instance match_type_eq_dec : EqDecision match_type.
Proof. solve_decision. Defined.
Global Instance matcher_eq_dec : EqDecision matcher.
Proof. solve_decision. Defined.

(** prometheus promql.Node.  A vector or matrix selector holds matchers (the metric name is the matcher
    __name__); [info] stands for everything else about a node (operator, function, offset, range,
    numbers, strings, grouping). *)
Inductive expr :=
| ESelector (matrix : bool) (info : string) (ms : list matcher)
| ENode (info : string) (children : list expr).

(** promql.go:645-655 addSourceIDsFromLabelMatcher, as the list of ids added *)
Definition matcher_ids (m : matcher) : list string :=
  match lm_type m with
  | MatchRegexp => split "|" (lm_value m)
  | MatchEqual => [lm_value m]
  | _ => []
  end.

(** promql.go:637-643 addSourceIDsFromMatchers *)
Definition selector_ids (ms : list matcher) : list string :=
  m ← ms; if bool_decide (lm_name m = "source_id") then matcher_ids m else [].

(** promql.go:589-634 ExtractSourceIds after parsing: promql.Walk visits every node.  The ids are
    collected in a map: no duplicates, any order (the callers below are given an order). *)
Fixpoint expr_ids (e : expr) : list string :=
  match e with
  | ESelector _ _ ms => selector_ids ms
  | ENode _ cs => concat (expr_ids <$> cs)
  end.
Definition id_set (ids : list string) : gset string := list_to_set ids.

(** promql.go:712-723 replaceSourceIdsInEqualMatcher; [sets] is the map sourceIDExpansions *)
Definition type_for (expansions : list string) : match_type :=
  if (1 <? length expansions)%nat then MatchRegexp else MatchEqual.
Definition replace_equal (sets : gmap string (list string)) (m : matcher) : matcher :=
  match sets !! lm_value m with
  | Some expansions => mk_matcher (lm_name m) (type_for expansions) (join "|" expansions)
  | None => m
  end.

(** promql.go:725-741 replaceSourceIdsInRegexpMatcher; a missing key is Go's nil slice *)
Definition replace_regexp (sets : gmap string (list string)) (m : matcher) : matcher :=
  let expansions := (id ← split "|" (lm_value m); default [] (sets !! id)) in
  mk_matcher (lm_name m) (type_for expansions) (join "|" expansions).

(** promql.go:699-710 replaceInMatchers *)
Definition replace_matcher (sets : gmap string (list string)) (m : matcher) : matcher :=
  if bool_decide (lm_name m = "source_id") then
    match lm_type m with
    | MatchEqual => replace_equal sets m
    | MatchRegexp => replace_regexp sets m
    | _ => m
    end
  else m.

(** promql.go:657-696 ReplaceSourceIdSets after parsing: every selector's matchers are rewritten *)
Fixpoint replace_ids (sets : gmap string (list string)) (e : expr) : expr :=
  match e with
  | ESelector b i ms => ESelector b i (replace_matcher sets <$> ms)
  | ENode i cs => ENode i (replace_ids sets <$> cs)
  end.

(** ** Metric names *)

Definition byte_in (lo hi : nat) (c : ascii) : bool :=
  let n := nat_of_ascii c in (lo <=? n)%nat && (n <=? hi)%nat.

(** unicode/utf8 DecodeRuneInString: the width of the first rune; an invalid sequence has width 1 *)
Definition cont (c : ascii) : bool := byte_in 128 191 c.
Definition rune_width (s : string) : nat :=
  match s with
  | EmptyString => 0
  | String a r =>
      match r with
      | String b r2 =>
          if byte_in 194 223 a && cont b then 2
          else
            match r2 with
            | String c r3 =>
                if ((byte_in 224 224 a && byte_in 160 191 b) || (byte_in 225 236 a && cont b)
                    || (byte_in 237 237 a && byte_in 128 159 b) || (byte_in 238 239 a && cont b)) && cont c
                then 3
                else
                  match r3 with
                  | String d _ =>
                      if ((byte_in 240 240 a && byte_in 144 191 b) || (byte_in 241 243 a && cont b)
                          || (byte_in 244 244 a && byte_in 128 143 b)) && cont c && cont d
                      then 4 else 1
                  | EmptyString => 1
                  end
            | EmptyString => 1
            end
      | EmptyString => 1
      end
  end%nat.

(** \W is everything but [0-9A-Za-z_]; [\W_] is everything but [0-9A-Za-z] *)
Definition alnum (c : ascii) : bool := byte_in 48 57 c || byte_in 65 90 c || byte_in 97 122 c.
(** [A-z_], a range that includes [ \ ] ^ ` too *)
Definition range_A_z (c : ascii) : bool := byte_in 65 122 c || ceqb c "_".

(** promql.go:410-418 SanitizeMetricName: ReplaceAllString of ^[^A-z_]|[\W_]+? by "_".  The first
    alternative matches one rune at the start, the second the shortest run, one rune.  [first]: at the
    start of the text; [skip]: bytes of the current rune still to drop. *)
Fixpoint sanitize_from (first : bool) (skip : nat) (s : string) : string :=
  match s with
  | EmptyString => EmptyString
  | String c s' =>
      match skip with
      | S k => sanitize_from first k s'
      | O =>
          if (first && negb (range_A_z c)) || negb (alnum c)
          then String "_" (sanitize_from false (rune_width s - 1) s')
          else String c (sanitize_from false 0 s')
      end
  end.
Definition sanitize (s : string) : string := sanitize_from true 0 s.

(** ** Select *)

(** The float64 a sample gets, before conversion: float64(total), the gauge's bits,
    float64(stop - start).  The rounding of the conversions is not modelled. *)
Inductive sample := FromCounter (total : Z) | FromGauge (bits : f64) | FromTimer (d : Z).
Global Instance sample_eq_dec : EqDecision sample.
Proof. solve_decision. Defined.

(** promql.go:473-476 point *)
Record point := mk_point { p_t : Z; p_v : sample }.
Global Instance point_eq_dec : EqDecision point.
Proof. solve_decision. Defined.

(** promql.go:300-319: the metric name (last __name__ matcher wins), the source ids and the remaining
    matchers reduced to name/value pairs *)
Definition sel_metric (ms : list matcher) : string :=
  foldl (fun acc m => if bool_decide (lm_name m = "__name__") then lm_value m else acc) EmptyString ms.
Definition sel_labels (ms : list matcher) : list (string * string) :=
  omap (fun m => if bool_decide (lm_name m = "__name__") || bool_decide (lm_name m = "source_id") then None
                 else Some (lm_name m, lm_value m)) ms.

(** promql.go:430-438 hasLabels *)
Definition has_labels (tags : gmap string string) (ls : list (string * string)) : bool :=
  forallb (fun l => bool_decide (tags !! l.1 = Some l.2)) ls.

(** promql.go:400-408 checkMapForSanitizedMetricName; [order] is the order in which Go iterates over the
    gauge's map *)
Definition check_map (order : gmap string gauge_value -> list (string * gauge_value))
    (metrics : gmap string gauge_value) (metric : string) : option gauge_value :=
  snd <$> head (filter (fun kv => sanitize kv.1 = metric) (order metrics)).

(** promql.go:351-376: the value of an envelope for the metric; None is continue *)
Definition value_of (order : gmap string gauge_value -> list (string * gauge_value)) (metric : string)
    (m : message) : option sample :=
  match m with
  | MCounter name _ total => if bool_decide (sanitize name = metric) then Some (FromCounter total) else None
  | MGauge metrics => FromGauge ∘ gv_value <$> check_map order metrics metric
  | MTimer name start stop => if bool_decide (sanitize name = metric) then Some (FromTimer (wrap64 (stop - start))) else None
  | _ => None
  end.

(** promql.go:378 time.Unix(0, ts).Truncate(time.Second).UnixNano().  Truncate rounds down to a
    multiple of d since the zero time (Jan 1, year 1), which lies a whole number of seconds before the
    epoch; promql.go:391: division by 10^6 truncates toward zero, exact here. *)
Definition trunc_second (ts : Z) : Z := ts - ts mod 1000000000.
Definition sample_time (ts : Z) : Z := Z.quot (trunc_second ts) 1000000.

(** promql.go:380-388 the labels of a sample *)
Definition sample_tags (e : envelope) : gmap string string :=
  let t := <["source_id" := e_source e]> (e_tags e) in
  if bool_decide (e_instance e = EmptyString) then t else <["instance_id" := e_instance e]> t.

(** promql.go:347-393: the sample an envelope contributes, if any *)
Definition envelope_sample (order : gmap string gauge_value -> list (string * gauge_value))
    (ms : list matcher) (e : envelope) : option (gmap string string * point) :=
  if has_labels (e_tags e) (sel_labels ms) then
    v ← value_of order (sel_metric ms) (e_msg e);
    Some (sample_tags e, mk_point (sample_time (e_ts e)) v)
  else None.

(** promql.go:525-528 seriesData *)
Record series := mk_series { s_tags : gmap string string; s_points : list point }.
Global Instance series_eq_dec : EqDecision series.
Proof. solve_decision. Defined.

(** promql.go:557-571 getSeriesID *)
Definition series_id (tags : gmap string string) : string :=
  foldl (fun acc k => append acc (append "-" (append k (append "-" (default EmptyString (tags !! k))))))
        EmptyString (sort_strings ((map_to_list tags).*1)).

(** promql.go:540-555 seriesSetBuilder.add *)
Definition builder_add (b : gmap string series) (tp : gmap string string * point) : gmap string series :=
  let id := series_id tp.1 in
  let d := match b !! id with Some d => d | None => mk_series tp.1 [] end in
  <[id := mk_series (s_tags d) (s_points d ++ [tp.2])]> b.

(** promql.go:573-586 buildSeriesSet: the series in some order; labels are the tags *)
Definition build (samples : list (gmap string string * point)) : gmap string series :=
  foldl builder_add ∅ samples.

(** promql.go:299-398 Select.  [reader] is DataReader.Read for a source id in the querier's window
    (None: error); [oids] is the order in which Go iterates over the set of source ids.  None: an error
    (no source id, or a failed read), which is also reported through errf.  promql.go:326-394: the samples
    of all sources in the order they are added to the builder: *)
Fixpoint gather_samples (reader : string -> option (list envelope))
    (order : gmap string gauge_value -> list (string * gauge_value)) (ms : list matcher) (ids : list string)
  : option (list (gmap string string * point)) :=
  match ids with
  | [] => Some []
  | id :: ids' =>
      es ← reader id; rest ← gather_samples reader order ms ids';
      Some (omap (envelope_sample order ms) es ++ rest)
  end.
Definition select (reader : string -> option (list envelope))
    (order : gmap string gauge_value -> list (string * gauge_value)) (oids : gset string -> list string)
    (ms : list matcher) : option (gmap string series) :=
  let ids := oids (id_set (selector_ids ms)) in
  if (length ids =? 0)%nat then None
  else build <$> gather_samples reader order ms ids.

(** promql.go:330-339: the read request of one source; Querier (277-287) gives start and end *)
Record data_read := mk_dr { dr_source : string; dr_start : Z; dr_end : Z; dr_types : list etype }.
Definition select_read (mint maxt : Z) (id : string) : data_read :=
  mk_dr id (wrap64 (wrap64 (mint * 1000000) - 1000000000)) (wrap64 (maxt * 1000000)) [T_GAUGE; T_COUNTER; T_TIMER].

(** ** Series iterator *)

(** sort.Search, Go standard library: smallest index in [i, j) for which f holds, assuming f is
    monotone; [fuel] bounds the loop *)
Fixpoint search_loop (fuel : nat) (f : nat -> bool) (i j : nat) : option nat :=
  if (j <=? i)%nat then Some i
  else match fuel with
       | O => None
       | S fuel' => let h := ((i + j) / 2)%nat in
                    if f h then search_loop fuel' f i h else search_loop fuel' f (h + 1) j
       end.

(** promql.go:487-519 concreteSeriesIterator; cur starts at -1 *)
Record iter := mk_iter { it_cur : Z; it_points : list point }.
Definition new_iter (ps : list point) : iter := mk_iter (-1) ps.
(** promql.go:500-505 Seek; None: the search does not end or the index is out of range *)
Definition seek (t : Z) (it : iter) : option (iter * bool) :=
  let n := length (it_points it) in
  c ← search_loop (S n) (fun i => match it_points it !! i with Some p => t <=? p_t p | None => false end) 0 n;
  Some (mk_iter (Z.of_nat c) (it_points it), (Z.of_nat c <? Z.of_nat n)).
(** promql.go:508-512 At; None is an index out of range panic *)
Definition at_ (it : iter) : option point :=
  if it_cur it <? 0 then None else it_points it !! Z.to_nat (it_cur it).
(** promql.go:515-518 Next *)
Definition next (it : iter) : iter * bool :=
  let c := it_cur it + 1 in (mk_iter c (it_points it), c <? Z.of_nat (length (it_points it))).

(** ** Walking data reader *)
From Verif.Client Require Import Walk.

(** data_reader/walking_data_reader.go:22-49 Read, observed for n reads of the cache: everything the walk
    delivered, unless the context is done at the end ([ctx_done]).  client.NewRetryBackoffOnErr(1s, 5);
    WithWalkLimit, WithWalkEnvelopeTypes and the end time are always set; the walk's delay is its default
    (walk.go:29-33). *)
Definition walking_config (start stop limit : Z) (types : list etype) : walk_config :=
  mk_walk start (Some stop) (Some limit) (Some types) 1000000000 "".
Definition walking_read (reader : nat -> walk_read -> answer) (start stop limit : Z) (types : list etype)
    (ctx_done : bool) (n : nat) : option (list envelope) :=
  if ctx_done then None
  else Some (concat (deliveries
         (walk (retry_backoff 5 true)
               (walking_config start stop limit types) reader (fun _ _ => true) n 0).1)).
