(** Model of github.com/emirpasic/gods/trees/avltree (imported at
    internal/cache/store/store.go:13; instantiated with int64 keys at store.go:101).
    The library is not vendored in /repo; the functions below transcribe its published source
    (avltree.go: Put, Get, Remove, Left, put, remove, removeMin, putFix, removeFix,
    singlerot, doublerot, rotate).  Parent pointers, which the store never reads, are dropped.
    [None] is a nil pointer dereference inside the library. *)
From stdpp Require Import prelude.
Open Scope Z_scope.

(** avltree.go: Node.b, the balance factor -1, 0, +1 *)
Inductive bal := BL | BE | BR.
(** avltree.go: the int8 argument c = -1 (left) or +1 (right); a = (c+1)/2 indexes Children *)
Inductive dir := DL | DR.

Definition opp (d : dir) : dir := match d with DL => DR | DR => DL end.
Definition bal_of (d : dir) : bal := match d with DL => BL | DR => BR end.
Definition bal_eqb (x y : bal) : bool :=
  match x, y with BL, BL | BE, BE | BR, BR => true | _, _ => false end.

(** avltree.go: type Node; [Leaf] is the nil pointer *)
Inductive tree (V : Type) :=
| Leaf
| Node (b : bal) (k : Z) (v : V) (l r : tree V).
Arguments Leaf {V}.
Arguments Node {V} b k v l r.

Section avl.
Context {V : Type}.
Notation tree := (tree V).

(** avltree.go: node.Children[(c+1)/2] *)
Definition child (d : dir) (t : tree) : option tree :=
  match t with
  | Leaf => None
  | Node _ _ _ l r => Some (match d with DL => l | DR => r end)
  end.
Definition set_child (d : dir) (t : tree) (x : tree) : option tree :=
  match t with
  | Leaf => None
  | Node b k v l r => Some (match d with DL => Node b k v x r | DR => Node b k v l x end)
  end.
Definition get_b (t : tree) : option bal :=
  match t with Leaf => None | Node b _ _ _ _ => Some b end.
Definition set_b (t : tree) (b : bal) : option tree :=
  match t with Leaf => None | Node _ k v l r => Some (Node b k v l r) end.

(** avltree.go: func rotate(c int8, s *Node) *Node
    a := (c+1)/2; r := s.Children[a]; s.Children[a] = r.Children[a^1]; r.Children[a^1] = s; return r *)
Definition rotate (d : dir) (s : tree) : option tree :=
  r ← child d s;
  rc ← child (opp d) r;
  s' ← set_child d s rc;
  set_child (opp d) r s'.

(** avltree.go: func singlerot(c int8, s *Node) *Node
    s.b = 0; s = rotate(c, s); s.b = 0; return s *)
Definition singlerot (d : dir) (s : tree) : option tree :=
  s1 ← set_b s BE;
  s2 ← rotate d s1;
  set_b s2 BE.

(** avltree.go: func doublerot(c int8, s *Node) *Node
    a := (c+1)/2; r := s.Children[a]; s.Children[a] = rotate(-c, s.Children[a]); p := rotate(c, s)
    switch { default: s.b = 0; r.b = 0   case p.b == c: s.b = -c; r.b = 0   case p.b == -c: s.b = 0; r.b = c }
    p.b = 0; return p
    After the rotations s is p.Children[a^1] and r is p.Children[a]. *)
Definition doublerot (d : dir) (s : tree) : option tree :=
  r ← child d s;
  r' ← rotate (opp d) r;
  s1 ← set_child d s r';
  p ← rotate d s1;
  pb ← get_b p;
  let '(sb, rb) :=
    if bal_eqb pb (bal_of d) then (bal_of (opp d), BE)
    else if bal_eqb pb (bal_of (opp d)) then (BE, bal_of d)
    else (BE, BE) in
  ps ← child (opp d) p;
  ps' ← set_b ps sb;
  pr ← child d p;
  pr' ← set_b pr rb;
  p1 ← set_child (opp d) p ps';
  p2 ← set_child d p1 pr';
  set_b p2 BE.

(** avltree.go: func putFix(c int8, t **Node) bool *)
Definition putFix (d : dir) (s : tree) : option (tree * bool) :=
  b ← get_b s;
  if bal_eqb b BE then s' ← set_b s (bal_of d); Some (s', true)
  else if bal_eqb b (bal_of (opp d)) then s' ← set_b s BE; Some (s', false)
  else
    ch ← child d s;
    cb ← get_b ch;
    s' ← (if bal_eqb cb (bal_of d) then singlerot d s else doublerot d s);
    Some (s', false).

(** avltree.go: func (t *Tree) put(key, value, p *Node, qp **Node) bool.
    The third component tells whether a new node was created (t.size++). *)
Fixpoint put (k : Z) (v : V) (t : tree) : option (tree * bool * bool) :=
  match t with
  | Leaf => Some (Node BE k v Leaf Leaf, true, true)
  | Node b k' v' l r =>
      match Z.compare k k' with
      | Eq => Some (Node b k v l r, false, false)
      | Lt => '(l', fix_, new) ← put k v l;
              if (fix_ : bool) then '(t', f) ← putFix DL (Node b k' v' l' r); Some (t', f, new)
              else Some (Node b k' v' l' r, false, new)
      | Gt => '(r', fix_, new) ← put k v r;
              if (fix_ : bool) then '(t', f) ← putFix DR (Node b k' v' l r'); Some (t', f, new)
              else Some (Node b k' v' l r', false, new)
      end
  end.

(** avltree.go: func removeFix(c int8, t **Node) bool *)
Definition removeFix (d : dir) (s : tree) : option (tree * bool) :=
  b ← get_b s;
  if bal_eqb b BE then s' ← set_b s (bal_of d); Some (s', false)
  else if bal_eqb b (bal_of (opp d)) then s' ← set_b s BE; Some (s', true)
  else
    ch ← child d s;
    cb ← get_b ch;
    if bal_eqb cb BE then
      s1 ← rotate d s;
      s2 ← set_b s1 (bal_of (opp d));
      Some (s2, false)
    else
      s' ← (if bal_eqb cb (bal_of d) then singlerot d s else doublerot d s);
      Some (s', true).

(** avltree.go: func removeMin(qp **Node, minKey, minVal *interface{}) bool.
    In the [a == BE] branch of the library's removeFix the new root gets b = -c and the old root,
    whose b is c already, keeps it. *)
Fixpoint removeMin (t : tree) : option (tree * (Z * V) * bool) :=
  match t with
  | Leaf => None
  | Node b k v l r =>
      match l with
      | Leaf => Some (r, (k, v), true)
      | Node _ _ _ _ _ =>
          '(l', kv, fix_) ← removeMin l;
          if (fix_ : bool) then '(t', f) ← removeFix DR (Node b k v l' r); Some (t', kv, f)
          else Some (Node b k v l' r, kv, false)
      end
  end.

(** avltree.go: func (t *Tree) remove(key, qp **Node) bool.
    The third component tells whether the key was found (t.size--). *)
Fixpoint remove (k : Z) (t : tree) : option (tree * bool * bool) :=
  match t with
  | Leaf => Some (Leaf, false, false)
  | Node b k' v' l r =>
      match Z.compare k k' with
      | Eq => match r with
              | Leaf => Some (l, true, true)
              | Node _ _ _ _ _ =>
                  '(r', (mk, mv), fix_) ← removeMin r;
                  if (fix_ : bool) then '(t', f) ← removeFix DL (Node b mk mv l r'); Some (t', f, true)
                  else Some (Node b mk mv l r', false, true)
              end
      | Lt => '(l', fix_, found) ← remove k l;
              if (fix_ : bool) then '(t', f) ← removeFix DR (Node b k' v' l' r); Some (t', f, found)
              else Some (Node b k' v' l' r, false, found)
      | Gt => '(r', fix_, found) ← remove k r;
              if (fix_ : bool) then '(t', f) ← removeFix DL (Node b k' v' l r'); Some (t', f, found)
              else Some (Node b k' v' l r', false, found)
      end
  end.

(** avltree.go: func (t *Tree) Get(key) (value, found bool) *)
Fixpoint get (k : Z) (t : tree) : option V :=
  match t with
  | Leaf => None
  | Node _ k' v' l r =>
      match Z.compare k k' with Eq => Some v' | Lt => get k l | Gt => get k r end
  end.

(** avltree.go: func (t *Tree) Left() *Node (bottom(0)); None is the nil node of an empty tree *)
Fixpoint left (t : tree) : option (Z * V) :=
  match t with
  | Leaf => None
  | Node _ k v l _ => match l with Leaf => Some (k, v) | Node _ _ _ _ _ => left l end
  end.

(** avltree.go: type Tree struct { Root *Node; size int } *)
Record avltree := mk_avl { av_root : tree; av_size : Z }.

(** avltree.go: NewWith *)
Definition avl_new : avltree := mk_avl Leaf 0.

(** avltree.go: func (t *Tree) Put *)
Definition avl_put (k : Z) (v : V) (t : avltree) : option avltree :=
  '(r, _, new) ← put k v (av_root t);
  Some (mk_avl r (if (new : bool) then av_size t + 1 else av_size t)).

(** avltree.go: func (t *Tree) Remove *)
Definition avl_remove (k : Z) (t : avltree) : option avltree :=
  '(r, _, found) ← remove k (av_root t);
  Some (mk_avl r (if (found : bool) then av_size t - 1 else av_size t)).

Definition avl_get (k : Z) (t : avltree) : option V := get k (av_root t).
Definition avl_left (t : avltree) : option (Z * V) := left (av_root t).

End avl.
Arguments avltree V : clear implicits.
