(** SpecXmlEncode.v - specification side: trees that differ only in the order
    in which maps hold their entries. *)
From Coq Require Import Permutation.
From Verif Require Import Base RbxlValues RbxValues Tree.

Record same_inst (i j : inst) : Prop := SameInst {
  si_class : i_class i = i_class j; si_ref : i_ref i = i_ref j; si_service : i_service i = i_service j;
  si_children : i_children i = i_children j; si_props : Permutation (i_props i) (i_props j);
  si_names : NoDup (map fst (i_props i)) }.
Definition same_heap (h h' : heap) : Prop := Forall2 same_inst h h'.
Definition same_root (r r' : root) : Prop :=
  r_instances r = r_instances r' /\ Permutation (r_metadata r) (r_metadata r') /\ NoDup (map fst (r_metadata r)).
