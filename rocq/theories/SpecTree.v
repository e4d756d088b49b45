(** SpecTree.v - specification side for instance trees. *)
From Coq Require Import Permutation.
From Verif Require Import Base RbxlValues RbxValues Tree.

(** A finite tree of instances in a heap. *)
Inductive rtree := RNode (p : ptr) (ts : list rtree).
Definition rroot (t : rtree) : ptr := match t with RNode p _ => p end.
(** Instances in depth-first order, parents first. *)
Fixpoint rnodes (t : rtree) : list ptr :=
  match t with RNode p ts => p :: flat_map rnodes ts end.
Definition fnodes (ts : list rtree) : list ptr := flat_map rnodes ts.
Inductive tree_at (h : heap) : rtree -> Prop :=
| tree_node p ts i :
    hget h p = Some i -> i_children i = map rroot ts -> Forall (tree_at h) ts -> tree_at h (RNode p ts).
(** The forest has no sharing: it is really a forest. *)
Definition forest_at (h : heap) (ts : list rtree) : Prop := Forall (tree_at h) ts /\ NoDup (fnodes ts).

Fixpoint height (t : rtree) : nat :=
  match t with RNode _ ts => S (fold_right (fun t n => Nat.max (height t) n) 0 ts) end.

(** Heaps a Go program can build: property maps have one entry per name and
    references point to instances or are nil. *)
Definition wf_heap (h : heap) : Prop :=
  forall p i, hget h p = Some i ->
    NoDup (map fst (i_props i)) /\
    (forall name x, In (name, RReference x) (i_props i) -> x <= length h).

(** The only thing that may differ is the reference string. *)
Definition same_but_ref (i j : inst) : Prop :=
  i_class i = i_class j /\ i_service i = i_service j /\ i_props i = i_props j /\ i_children i = i_children j.

(** Position of an instance in the depth-first order. *)
Fixpoint index_of (p : ptr) (l : list ptr) : option nat :=
  match l with
  | [] => None
  | q :: l => if (q =? p)%nat then Some 0 else option_map S (index_of p l)
  end.
(** Copies get the next free addresses in depth-first order. *)
Definition clone_of (h : heap) (nodes : list ptr) (p : ptr) : ptr :=
  match index_of p nodes with Some k => S (length h + k) | None => p end.
(** What a property of the original becomes: references inside the copied
    forest follow it, all others stay, other values are copied. *)
Definition copied_value (h : heap) (nodes : list ptr) (v : rvalue) : rvalue :=
  match v with
  | RReference x => RReference (clone_of h nodes x)
  | v => rcopy v
  end.
(** The copy of the forest [nodes] of heap h is in h'. *)
Definition is_copy (h h' : heap) (nodes : list ptr) : Prop :=
  length h' = length h + length nodes /\
  (forall p i, hget h p = Some i -> exists i', hget h' p = Some i' /\ same_but_ref i i') /\
  (forall p i, In p nodes -> hget h p = Some i ->
     exists i0' i', hget h' p = Some i0' /\ hget h' (clone_of h nodes p) = Some i' /\
       i_class i' = i_class i /\ i_service i' = i_service i /\ i_ref i' = i_ref i0' /\
       i_children i' = map (clone_of h nodes) (i_children i) /\
       (forall name, mfind (i_props i') name = option_map (copied_value h nodes) (mfind (i_props i) name))).

(** A random source that does not repeat itself within any n+1 successive
    reads (in the 122 bits that are used). *)
Definition never_repeats (n : nat) (rnd : nat -> bytes) : Prop :=
  forall i j, i < j <= i + n -> GenerateReference (rnd i) <> GenerateReference (rnd j).
Definition any_order (ord : ptr -> list (bytes * rvalue) -> list (bytes * rvalue)) : Prop :=
  forall p l, Permutation l (ord p l).
