(** SpecTables.v - specification side: what the chunks of a file say, chunk
    kind by chunk kind. *)
From Coq Require Import Permutation Sorting.Sorted.
From Verif Require Import Base RbxlValues RbxlArrays RbxlModel RbxlFile RbxValues Tree RbxlCodec SpecValues SpecTree SpecCodec.

(** INST: class id, class name, instance ids. *)
Record group := Group { gr_id : Z; gr_class : bytes; gr_ids : list Z }.
Definition groups_in (cs : list chunk) : list group :=
  flat_map (fun c => match ch_payload c with PInst id class ids _ _ => [Group id class ids] | _ => [] end) cs.
(** PROP: class id, property name, values. *)
Definition columns_in (cs : list chunk) : list (Z * bytes * option array) :=
  flat_map (fun c => match ch_payload c with PProp id name a => [(id, name, a)] | _ => [] end) cs.
(** PRNT: pairs of a child's id and its parent's. *)
Definition links_in (cs : list chunk) : list (list (Z * Z)) :=
  flat_map (fun c => match ch_payload c with PPrnt _ ch ps => [combine ch ps] | _ => [] end) cs.
(** META: key-value pairs. *)
Definition metadata_in (cs : list chunk) : list (list (bytes * bytes)) :=
  flat_map (fun c => match ch_payload c with PMeta m => [m] | _ => [] end) cs.
(** SSTR: the strings. *)
Definition strings_in (cs : list chunk) : list (list bytes) :=
  flat_map (fun c => match ch_payload c with PSstr _ ss => [map snd ss] | _ => [] end) cs.

(** 0, 1, ..., n-1 *)
Definition ids_below (n : nat) : list Z := map Z.of_nat (seq 0 n).
(** Instance number k, counting the listed instances from 0. *)
Definition numbered (h : heap) (nodes : list ptr) (k : nat) (p : ptr) (x : inst) : Prop :=
  nth_error nodes k = Some p /\ hget h p = Some x.
(** The links parents and children should have, the roots with -1. *)
Definition link_of (h : heap) (roots nodes : list ptr) (child parent : Z) : Prop :=
  exists k c, child = Z.of_nat k /\ nth_error nodes k = Some c /\
    ((parent = (-1)%Z /\ In c roots) \/
     exists j p x, parent = Z.of_nat j /\ numbered h nodes j p x /\ In c (i_children x)).
(** Go's order of strings, strictly. *)
Definition before (a b : bytes) : Prop := bytes_ltb a b = true.
(** The property was left out: its values in the instances of the class have
    different types. *)
Definition mixed_types (h : heap) (nodes : list ptr) (class name : bytes) : Prop := ~ alike h nodes class name.
(** Two results of encoding that differ in nothing but the order of metadata
    and of warnings. *)
Definition same_chunk (a b : chunk) : Prop :=
  a = b \/ exists m m', a = Chunk true (PMeta m) /\ b = Chunk true (PMeta m') /\ Permutation m m'.
Definition same_but_order (a b : res (fmodel * list cwarn)) : Prop :=
  match a, b with
  | OK (f, ws), OK (f', ws') =>
      fm_version f = fm_version f' /\ fm_classCount f = fm_classCount f' /\ fm_instCount f = fm_instCount f' /\
      Forall2 same_chunk (fm_chunks f) (fm_chunks f') /\ fm_trailing f = fm_trailing f' /\
      fm_groups f = fm_groups f' /\ Permutation ws ws'
  | Err e, Err e' => e = e'
  | Panic, Panic | Hang, Hang => True
  | _, _ => False
  end.
(** The values of a property in the instances of a class, in order. *)
Definition class_values (h : heap) (nodes : list ptr) (class name : bytes) : list rvalue :=
  flat_map (fun p => match hget h p with
                     | Some x => if bytes_eqb (i_class x) class
                                 then match mfind (i_props x) name with Some v => [v] | None => [] end else []
                     | None => []
                     end) nodes.
(** The position of an instance in the file: a group of its class that has its
    number, and where. *)
Definition placed (cs : list chunk) (k : nat) (class : bytes) (id : Z) (i : nat) : Prop :=
  exists ids, In (Group id class ids) (groups_in cs) /\ nth_error ids i = Some (Z.of_nat k).
