(** SpecDecode.v - specification side: the tree that the chunks of a file
    stand for. *)
From Coq Require Import Relations.
From Verif Require Import Base RbxlValues RbxlArrays RbxlModel RbxlFile RbxValues Tree RbxlCodec SpecValues SpecTree SpecTables.

(** The instance ids of a list of chunks, in the order of the file. *)
Definition ids_in (cs : list chunk) : list Z := flat_map gr_ids (groups_in cs).
(** The instance with an id: the k-th id is the k-th address; 0, nil, for an id
    that is not there. *)
Fixpoint address (ids : list Z) (z : Z) : ptr :=
  match ids with
  | [] => 0
  | y :: ids => if (y =? z)%Z then 1 else match address ids z with 0 => 0 | S k => S (S k) end
  end.
Definition has_id (ids : list Z) (z : Z) : bool := existsb (Z.eqb z) ids.
(** The links that count: a child that is there, and no parent (-1) or one that
    is there.  [known] are the ids before these chunks. *)
Definition counts (known : list Z) (cp : Z * Z) : bool :=
  has_id known (fst cp) && ((snd cp =? -1)%Z || has_id known (snd cp)).
Fixpoint links_of (known : list Z) (cs : list chunk) : list (Z * Z) :=
  match cs with
  | [] => []
  | c :: cs =>
      match ch_payload c with
      | PInst _ _ ids _ _ => links_of (known ++ ids) cs
      | PPrnt _ ch ps => filter (counts known) (combine ch ps) ++ links_of known cs
      | _ => links_of known cs
      end
  end.
(** The children linked to a parent, in order. *)
Definition kids (links : list (Z * Z)) (parent : Z) : list Z :=
  map fst (filter (fun cp => (snd cp =? parent)%Z) links).
(** The strings of the last SSTR chunk. *)
Definition last_strings (cs : list chunk) : list bytes := last (strings_in cs) [].

(** What cell i of a column reads as, given the ids and strings so far. *)
Inductive reads (q2m : quat) (ids : list Z) (strings : list bytes) : array -> nat -> rvalue -> Prop :=
| reads_reference vs i z : nth_error vs i = Some (VReference z) ->
    reads q2m ids strings (ARR tReference vs) i (RReference (address ids z))
| reads_shared vs i n : nth_error vs i = Some (VSharedString n) ->
    reads q2m ids strings (ARR tSharedString vs) i (RSharedString (nth (N.to_nat n) strings []))
| reads_plain t vs i b v : nth_error vs i = Some b -> decodeValue q2m b = Some v ->
    reads q2m ids strings (ARR t vs) i v
| reads_absent a ps i : nth_error ps i = Some false ->
    reads q2m ids strings (AOPT (Some a) ps) i (ROptional (tid_value_type (arr_type a)) None)
| reads_present a ps i b v : nth_error ps i = Some true -> arr_get a i = OK (Some b) -> decodeValue q2m b = Some v ->
    reads q2m ids strings (AOPT (Some a) ps) i (ROptional (rtype v) (Some v)).

(** Instance z is the i-th of the group of class id g. *)
Definition in_group (cs : list chunk) (z : Z) (g : Z) (class : bytes) (i : nat) : Prop :=
  exists ids, In (Group g class ids) (groups_in cs) /\ nth_error ids i = Some z.
(** Cell i of the last column with this class id and name is v. *)
Definition last_column (q2m : quat) (cs : list chunk) (g : Z) (name : bytes) (i : nat) (v : rvalue) : Prop :=
  exists before c a after, cs = before ++ c :: after /\ ch_payload c = PProp g name (Some a) /\
    reads q2m (ids_in before) (last_strings before) a i v /\
    (forall a', ~ In (g, name, Some a') (columns_in after)).
(** An instance as the chunks have it. *)
Record described (q2m : quat) (cs : list chunk) (z : Z) (x : inst) : Prop := {
  de_class : exists g i, in_group cs z g (i_class x) i /\
    forall name v, mfind (i_props x) name = Some v <-> last_column q2m cs g name i v;
  de_service : i_service x = true <->
    exists c g class ids gs i, In c cs /\ ch_payload c = PInst g class ids true gs /\ nth_error ids i = Some z /\ nth_error gs i = Some x01;
  de_ref : i_ref x = [];
  de_children : i_children x = map (address (ids_in cs)) (kids (links_of [] cs) z) }.

(** A cell of an optional column that has no value in a tree: present, but the
    element is a reference, a shared string or itself absent. *)
Definition unreadable (a : array) : Prop :=
  exists v ps i, a = AOPT (Some v) ps /\ nth_error ps i = Some true /\
    (arr_get v i = OK None \/ (exists z, arr_get v i = OK (Some (VReference z))) \/
     (exists n, arr_get v i = OK (Some (VSharedString n)))).
(** 0 <= id < bound *)
Definition below (bound : N) (id : Z) : Prop := (0 <= id < Z.of_N bound)%Z.
(** The ids and lengths of a file fit together. *)
Record consistent (f : fmodel) : Prop := {
  co_class : Forall (below (fm_classCount f)) (map gr_id (groups_in (fm_chunks f)));
  co_classes : NoDup (map gr_id (groups_in (fm_chunks f)));
  co_ids : Forall (below (fm_instCount f)) (ids_in (fm_chunks f));
  co_distinct : NoDup (ids_in (fm_chunks f));
  co_flags : forall c g class ids gs, In c (fm_chunks f) -> ch_payload c = PInst g class ids true gs -> length gs = length ids;
  co_columns : forall g name a, In (g, name, a) (columns_in (fm_chunks f)) ->
    below (fm_classCount f) g /\ exists class ids, In (Group g class ids) (groups_in (fm_chunks f)) /\
      (forall a', a = Some a' -> arr_len a' = length ids);
  co_links : forall c v ch ps, In c (fm_chunks f) -> ch_payload c = PPrnt v ch ps ->
    v = 0%N /\ length ch = length ps /\ Forall (below (fm_instCount f)) ch }.
(** Instance c is linked to parent p; an ancestor. *)
Definition linked (links : list (Z * Z)) (c p : Z) : Prop := In (c, p) links /\ p <> (-1)%Z.
Definition ancestor (links : list (Z * Z)) : Z -> Z -> Prop := Relation_Operators.clos_trans_1n Z (linked links).
