(** A source the store does not forget. *)
From stdpp Require Import prelude gmap strings.
From Verif.StoreConc Require Import Model.

(** once the store knows [src], at every later moment of the schedule it still does *)
Definition stays (m : Z) (ls : list label) (src : string) : Prop :=
  ∀ l1 l2 l3 c1 c2, ls = l1 ++ l2 ++ l3 -> crun (initial m) l1 = Some c1 -> crun (initial m) (l1 ++ l2) = Some c2 ->
    is_Some (sh_index (cf_sh c1) !! src) -> is_Some (sh_index (cf_sh c2) !! src).
