(** Vocabulary for the properties of the concurrent store. *)
From stdpp Require Import prelude gmap strings.
From Verif.Base Require Import GoInt Envelope.
From Verif.Store Require Import Avl AvlProofs GoHeap Model Spec.
From Verif.StoreConc Require Import Model.
Open Scope Z_scope.

(** The envelopes in one storage, with their storage times *)
Definition held (sg : cstorage) : list (Z * envelope) := inorder (av_root (cs_tree sg)).
(** What a source's readers can see: the storage the index leads to *)
Definition visible_to (c : config) (src : string) : list envelope :=
  match sh_index (cf_sh c) !! src with
  | Some a => match sh_heap (cf_sh c) !! a with Some sg => (held sg).*2 | None => [] end
  | None => []
  end.

(** The envelopes of the Put calls that have returned *)
Definition put_done (th : thread) : list envelope := match th with PDone e _ => [e] | _ => [] end.
Definition put_done_to (src : string) (th : thread) : list envelope :=
  match th with PDone e s => if decide (s = src) then [e] else [] | _ => [] end.
Definition all_written (c : config) : list envelope := cf_threads c ≫= put_done.
Definition written_to (src : string) (c : config) : list envelope := cf_threads c ≫= put_done_to src.
(** Everything in any storage ever made, whether or not the index still leads to it *)
Definition all_held (c : config) : list envelope := (map_to_list (sh_heap (cf_sh c))) ≫= (fun p => (held p.2).*2).

(** The expired count that Meta reads from the source's storage; 0 for an unknown source *)
Definition visible_expired (c : config) (src : string) : Z :=
  match sh_index (cf_sh c) !! src with
  | Some a => match sh_heap (cf_sh c) !! a with Some sg => m_expired (cs_meta sg) | None => 0 end
  | None => 0
  end.
(** A Put to [src] that has been called and has not returned *)
Definition putting (src : string) (th : thread) : bool :=
  match th with
  | PStart _ s | PInit _ s | PMiss _ s | PWait _ s _ | PIn _ s _ | PRoom _ s _ => bool_decide (s = src)
  | _ => false
  end.
(** No Put to [src] is in progress *)
Definition settled (c : config) (src : string) : Prop := ∀ th, th ∈ cf_threads c -> putting src th = false.

(** The call has returned / the process has died in it *)
Definition finished (th : thread) : bool :=
  match th with PDone _ _ | GDone _ _ _ | MDone _ | TDone => true | _ => false end.
Definition crashed (c : config) : Prop := Panicked ∈ cf_threads c.
Definition quiescent (c : config) : Prop := ∀ th, th ∈ cf_threads c -> finished th = true.

(** No tick of the truncation loop *)
Definition truncation_free (ls : list label) : Prop := LCall CTruncate ∉ ls.
(** Every Get asks for types that exist *)
Definition known_types (ls : list label) : Prop :=
  ∀ src q ts t, LCall (CGet src q) ∈ ls -> q_types q = Some ts -> t ∈ ts -> ∀ n, t ≠ T_UNKNOWN n.

(** The Put and Get calls of a schedule in the order in which they return *)
Definition returned_by (l : label) (c' : config) : list op :=
  match l with
  | LStep tid _ => match cf_threads c' !! tid with
                   | Some (PDone e src) => [OPut e src 0]
                   | Some (GDone src q _) => [OGet src q]
                   | _ => []
                   end
  | LCall _ => []
  end.
Fixpoint returns (c : config) (ls : list label) : list op :=
  match ls with
  | [] => []
  | l :: ls' => match cstep c l with
                | Some c' => returned_by l c' ++ returns c' ls'
                | None => []
                end
  end.

(** The Puts called for [src] *)
Definition calls_to (src : string) (ls : list label) : list envelope :=
  ls ≫= (fun l => match l with LCall (CPut e s) => if decide (s = src) then [e] else [] | _ => [] end).
(** Few enough envelopes of one source within 4000 ns of each other for a free storage time to exist:
    either the per-source limit is at most 4000, or the Puts called are spread out. *)
Definition spread (m : Z) (ls : list label) : Prop :=
  m <= 4000 ∨
  ∀ e src, LCall (CPut e src) ∈ ls ->
    in64 (e_ts e) ∧ in64 (e_ts e + 4000) ∧
    Z.of_nat (length (filter (fun x => e_ts e - 4000 <= e_ts x <= e_ts e + 4000) (calls_to src ls))) <= 4000.

(** No truncation is told to prune more than the size counter says is there (cf. C25) *)
Fixpoint fair_prune (c : config) (ls : list label) : bool :=
  match ls with
  | [] => true
  | l :: ls' =>
      match l with
      | LStep tid ch => match cf_threads c !! tid with
                        | Some TStart => (0 <=? ch_q ch) && (ch_q ch <=? sh_count (cf_sh c))
                        | _ => true
                        end
      | LCall _ => true
      end && match cstep c l with Some c' => fair_prune c' ls' | None => true end
  end.

(** A truncation at work: it has asked how much to prune and has not finished *)
Definition working (th : thread) : bool :=
  match th with
  | TRange _ _ _ _ | TPush _ _ _ _ _ _ | TLoop _ _ | TWait _ _ _ _ | TIn _ _ _ _ | TCounted _ _ _ _ | TDel _ _ _ _ => true
  | _ => false
  end.
(** A Put to [src] that has made its first step and has not returned *)
Definition inserting (src : string) (th : thread) : bool :=
  match th with
  | PInit _ s | PMiss _ s | PWait _ s _ | PIn _ s _ | PRoom _ s _ => bool_decide (s = src)
  | _ => false
  end.
(** A Meta that has begun and has not returned *)
Definition reporting (th : thread) : bool :=
  match th with MRange _ _ _ | MRead _ _ _ _ _ | MFill _ _ | MSize _ _ _ _ => true | _ => false end.
(** A truncation that has taken the last envelope of a source and is about to drop the source *)
Definition dropping (th : thread) : bool := match th with TDel _ _ _ _ => true | _ => false end.
(** While a truncation is at work: the Puts under way are to sources that have something stored, no
    other truncation is at work (the code has one loop), and no Meta is under way when a source is dropped *)
Definition orderly (c : config) : Prop :=
  ∀ tid th, cf_threads c !! tid = Some th -> working th = true ->
    (∀ src th2, th2 ∈ cf_threads c -> inserting src th2 = true -> visible_to c src ≠ []) ∧
    (∀ tid2 th2, cf_threads c !! tid2 = Some th2 -> working th2 = true -> tid2 = tid) ∧
    (dropping th = true -> ∀ th2, th2 ∈ cf_threads c -> reporting th2 = false).
(** ... at every moment of the schedule *)
Definition orderly_run (m : Z) (ls : list label) : Prop :=
  ∀ l1 l2 c, ls = l1 ++ l2 -> crun (initial m) l1 = Some c -> orderly c.
(** Everything readers can see, source by source *)
Definition all_visible (c : config) : list envelope :=
  (map_to_list (sh_index (cf_sh c))).*1 ≫= visible_to c.
