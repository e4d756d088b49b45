(** SpecStat.v - specification side for the statistics of a tree
    (rbxfile-stat). *)
From Coq Require Import Permutation Sorted.
From Verif Require Import Base RbxlValues RbxValues Tree SpecTree StatCmd.
Local Notation string := String.string.

(** The instances of a forest, and the properties of all of them with the
    class of the instance. *)
Definition instances_of (h : heap) (ts : list rtree) : list inst :=
  flat_map (fun p => match hget h p with Some i => [i] | None => [] end) (fnodes ts).
Definition properties_of (h : heap) (ts : list rtree) : list (bytes * bytes * rvalue) :=
  flat_map (fun i => map (fun nv => (i_class i, fst nv, snd nv)) (i_props i)) (instances_of h ts).
(** How often k is f of an element *)
Definition occurs {A K} (eqb : K -> K -> bool) (f : A -> K) (l : list A) (k : K) : nat := length (filter (fun a => eqb (f a) k) l).
(** A table counts a list: one entry for each key that occurs, with the number
    of times it does. *)
Definition counts {A K} (eqb : K -> K -> bool) (f : A -> K) (l : list A) (m : option (list (K * nat))) : Prop :=
  exists t, m = Some t /\ NoDup (map fst t) /\ forall k n, In (k, n) t <-> n = occurs eqb f l k /\ n <> 0.
Definition total {K} (m : option (list (K * nat))) : nat := match m with None => 0 | Some t => list_sum (map snd t) end.

(** The type inside each optional property; class, name, type and length of
    each property that has a length. *)
Definition optional_types (h : heap) (ts : list rtree) : list Type_ :=
  flat_map (fun p => match snd p with ROptional t _ => [t] | _ => [] end) (properties_of h ts).
Definition length_of (v : rvalue) : list nat :=
  match v with
  | RString s | RBinaryString s | RProtectedString s | RContent s | RSharedString s => [length s]
  | RNumberSequence ks => [length ks]
  | RColorSequence ks => [length ks]
  | _ => []
  end.
Definition lengths (h : heap) (ts : list rtree) : list proplen :=
  flat_map (fun p => match p with (c, name, v) => map (PropLen c name (type_string (rtype v))) (length_of v) end) (properties_of h ts).

(** A sorting function: sort.Slice by descending length *)
Definition sorts (sorted : list proplen -> list proplen) : Prop :=
  forall l, Permutation l (sorted l) /\ StronglySorted (fun a b => pl_length b <= pl_length a) (sorted l).
