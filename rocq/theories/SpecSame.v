(** SpecSame.v - specification side: two heaps that hold the same tree. *)
From Verif Require Import Base RbxlValues RbxValues Tree SpecTree SpecRoot.

(** The same value, where the instance p is [phi p]. *)
Inductive same_value (phi : ptr -> ptr) : rvalue -> rvalue -> Prop :=
| same_plain v : (forall p, v <> RReference p) -> same_value phi v v
| same_reference p : same_value phi (RReference p) (RReference (phi p))
| same_optional t v v' : same_value phi v v' -> same_value phi (ROptional t (Some v)) (ROptional t (Some v')).
(** Reference strings may differ, and so may the order in which a property
    map is ranged over: i_props is compared as a map. *)
Record same_instance (phi : ptr -> ptr) (x x' : inst) : Prop := {
  si_class : i_class x' = i_class x;
  si_service : i_service x' = i_service x;
  si_children : i_children x' = map phi (i_children x);
  si_some : forall name v, mfind (i_props x) name = Some v ->
    exists v', mfind (i_props x') name = Some v' /\ same_value phi v v';
  si_none : forall name, mfind (i_props x) name = None -> mfind (i_props x') name = None }.
(** h' holds, at [phi p] for every listed p, what h holds at p.  References to
    other instances lead to other instances (or nil) in both. *)
Record same_tree (phi : ptr -> ptr) (h : heap) (nodes : list ptr) (h' : heap) : Prop := {
  sm_nil : phi 0 = 0;
  sm_inj : forall p q, In p nodes -> phi q = phi p -> q = p;
  sm_inst : forall p x, In p nodes -> hget h p = Some x -> exists x', hget h' (phi p) = Some x' /\ same_instance phi x x' }.
(** How metadata is written depends on the order in which Go ranges over the
    map, unless there is at most one entry. *)
Definition same_metadata (ev_meta ev_meta' ev_sort ev_sort' : list (bytes * bytes) -> list (bytes * bytes)) (m m' : list (bytes * bytes)) : Prop :=
  m = m' /\ (length m <= 1 \/ (forall l, ev_meta' l = ev_meta l) /\ (forall l, ev_sort' l = ev_sort l)).
(** Every font says that its family is the cached one. *)
Definition plain_fonts (h : heap) (nodes : list ptr) : Prop :=
  forall p x name v f c, In p nodes -> hget h p = Some x -> mfind (i_props x) name = Some v -> In (f, c) (fonts v) -> c = f.
