(** Model of Go's container/heap applied to ExpirationHeap
    (internal/cache/store/store.go:5, 515-538).  container/heap is the Go standard library;
    Push, Pop, up and down are transcribed from its source (src/container/heap/heap.go). *)
From stdpp Require Import prelude.
Open Scope Z_scope.

Section heap.
Context {A : Type} (key : A -> Z).

(** store.go:524 Less: h[i].timestamp < h[j].timestamp.  Out of range indexes do not occur:
    every caller below checks its indexes first. *)
Definition hless (h : list A) (i j : nat) : bool :=
  match h !! i, h !! j with
  | Some x, Some y => key x <? key y
  | _, _ => false
  end.

(** store.go:525 Swap *)
Definition hswap (h : list A) (i j : nat) : list A :=
  match h !! i, h !! j with
  | Some x, Some y => <[i := y]> (<[j := x]> h)
  | _, _ => h
  end.

(** heap.go: func up(h Interface, j int).  [fuel] bounds the loop; callers pass the length. *)
Fixpoint hup (fuel : nat) (h : list A) (j : nat) : list A :=
  match fuel with
  | O => h
  | S fuel' =>
      let i := ((j - 1) / 2)%nat in
      if (bool_decide (i = j) || negb (hless h j i)) then h
      else hup fuel' (hswap h i j) i
  end.

(** heap.go: func down(h Interface, i0, n int) *)
Fixpoint hdown (fuel : nat) (h : list A) (i n : nat) : list A :=
  match fuel with
  | O => h
  | S fuel' =>
      let j1 := (2 * i + 1)%nat in
      if bool_decide (n <= j1)%nat then h
      else
        let j2 := (j1 + 1)%nat in
        let j := if bool_decide (j2 < n)%nat && hless h j2 j1 then j2 else j1 in
        if negb (hless h j i) then h
        else hdown fuel' (hswap h i j) j n
  end.

(** heap.go: func Push: h.Push(x); up(h, h.Len()-1).  store.go:527-529 ExpirationHeap.Push appends. *)
Definition heap_push (h : list A) (x : A) : list A :=
  let h' := h ++ [x] in hup (length h') h' (length h' - 1).

(** store.go:531-538 ExpirationHeap.Pop, the raw pop of the last array element;
    None is the index-out-of-range panic on an empty slice. *)
Definition raw_pop (h : list A) : option (A * list A) :=
  match last h with
  | None => None
  | Some x => Some (x, take (length h - 1) h)
  end.

(** heap.go: func Pop: n := h.Len()-1; h.Swap(0, n); down(h, 0, n); return h.Pop().
    On an empty heap Swap(0, -1) panics: None. *)
Definition heap_pop (h : list A) : option (A * list A) :=
  match h with
  | [] => None
  | _ => let n := (length h - 1)%nat in
         raw_pop (hdown (length h) (hswap h 0 n) 0 n)
  end.

End heap.
