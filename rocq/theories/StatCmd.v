(** StatCmd.v - model of /repo/cmd/rbxfile-stat/main.go: the statistics of a
    tree, and what the three commands print when decoding fails.

    Not modelled: the JSON text.  Arguments and files are in Commands.v.
    Reading a map yields its entries in some order: [ord].  A property is never
    the nil interface.  [fuel] is the depth of the Go stack. *)
From Verif Require Import Base RbxlValues RbxValues Tree.
Local Notation string := String.string.

(** main.go:26-31 PropLen; the map key is compared field by field. *)
Record proplen := PropLen { pl_class : bytes; pl_property : bytes; pl_type : string; pl_length : nat }.
Definition proplen_eqb (a b : proplen) : bool :=
  bytes_eqb (pl_class a) (pl_class b) && bytes_eqb (pl_property a) (pl_property b) && String.eqb (pl_type a) (pl_type b) &&
  Nat.eqb (pl_length a) (pl_length b).

(** m[k]++ *)
Fixpoint bump {K} (eqb : K -> K -> bool) (m : list (K * nat)) (k : K) : list (K * nat) :=
  match m with
  | [] => [(k, 1)]
  | (k', n) :: m => if eqb k' k then (k', S n) :: m else (k', n) :: bump eqb m k
  end.

(** main.go:53-72 Stats without the field Format (C43). [None] is a nil map. *)
Record stats := Stats {
  st_instances : nat; st_properties : nat;
  st_classes : option (list (bytes * nat)); st_types : option (list (string * nat));
  st_optionals : option (list (string * nat)); st_largest : option (list (proplen * nat)) }.
Definition no_stats : stats := Stats 0 0 None None None None.

(** main.go:74-79 *)
Definition Okay : N := 0.
Definition Exit : N := 1.
Definition SkipProperties : N := 2.
Definition SkipChildren : N := 4.
Definition has (status flag : N) : bool := negb (N.land status flag =? 0)%N.

Section Walk.
Variables (h : heap) (ord : ptr -> list (bytes * rvalue) -> list (bytes * rvalue)).
Context {S_ : Type}.
Variable cb : S_ -> inst -> bytes -> option rvalue -> S_ * N.
(** main.go:88-96: the loop over the properties; false is "return false" *)
Fixpoint walk_props (i : inst) (l : list (bytes * rvalue)) (s : S_) : S_ * bool :=
  match l with
  | [] => (s, true)
  | (property, value) :: l =>
      let '(s, status) := cb s i property (Some value) in
      if has status Exit then (s, false)
      else if has status SkipProperties then (s, true)
      else walk_props i l s
  end.
(** main.go:81-105 walk *)
Fixpoint walk (fuel : nat) (instances : list ptr) (s : S_) : outcome Empty_set (S_ * bool) :=
  match fuel with
  | O => Hang
  | S fuel =>
      (fix each (ps : list ptr) (s : S_) : outcome Empty_set (S_ * bool) :=
         match ps with
         | [] => OK (s, true)
         | p :: ps =>
             match hget h p with
             | None => Panic                                       (* nil *)
             | Some i =>
                 let '(s, status) := cb s i [] None in
                 if has status Exit then OK (s, false)
                 else
                   let '(s, ok) := if has status SkipProperties then (s, true) else walk_props i (ord p (i_props i)) s in
                   if negb ok then OK (s, false)
                   else if has status SkipChildren then each ps s
                   else ' (s, ok) <- walk fuel (i_children i) s ;; if negb ok then OK (s, false) else each ps s
             end
         end) instances s
  end.
End Walk.

(** main.go:157-174: the length of a value that has one *)
Definition value_len (v : rvalue) : option nat :=
  match v with
  | RBinaryString s | RContent s | RProtectedString s | RSharedString s | RString s => Some (length s)
  | RColorSequence ks => Some (length ks)
  | RNumberSequence ks => Some (length ks)
  | _ => None
  end.
(** The callbacks of main.go:113-119, 123-127, 130-136, 139-149, 152-180 *)
Definition on_property (s : nat) (i : inst) (name : bytes) (value : option rvalue) : nat * N :=
  match value with None => (s, Okay) | Some _ => (S s, Okay) end.
Definition on_instance (s : nat * list (bytes * nat)) (i : inst) (name : bytes) (value : option rvalue) : nat * list (bytes * nat) * N :=
  let '(n, m) := s in (S n, bump bytes_eqb m (i_class i), SkipProperties).
Definition on_type (m : list (string * nat)) (i : inst) (name : bytes) (value : option rvalue) : list (string * nat) * N :=
  match value with None => (m, Okay) | Some v => (bump String.eqb m (type_string (rtype v)), Okay) end.
Definition on_optional (m : list (string * nat)) (i : inst) (name : bytes) (value : option rvalue) : list (string * nat) * N :=
  match value with
  | None => (m, Okay)
  | Some (ROptional t _) => (bump String.eqb m (type_string t), Okay)
  | Some _ => (m, Okay)
  end.
Definition on_length (m : list (proplen * nat)) (i : inst) (name : bytes) (value : option rvalue) : list (proplen * nat) * N :=
  match value with
  | None => (m, Okay)
  | Some v =>
      match value_len v with
      | None => (m, Okay)
      | Some n => (bump proplen_eqb m (PropLen (i_class i) name (type_string (rtype v)) n), Okay)
      end
  end.

(** main.go:107-181 Fill on a Stats without counts; [ords k] is the order of
    the maps in the k-th walk. *)
Definition Fill (ords : nat -> ptr -> list (bytes * rvalue) -> list (bytes * rvalue)) (fuel : nat) (h : heap) (r : option root)
  : outcome Empty_set stats :=
  match r with
  | None => OK no_stats
  | Some r =>
      ' (np, _) <- walk h (ords 0) on_property fuel (r_instances r) 0 ;;
      ' ((ni, classes), _) <- walk h (ords 1) on_instance fuel (r_instances r) (0, []) ;;
      ' (types, _) <- walk h (ords 2) on_type fuel (r_instances r) [] ;;
      ' (optionals, _) <- walk h (ords 3) on_optional fuel (r_instances r) [] ;;
      ' (largest, _) <- walk h (ords 4) on_length fuel (r_instances r) [] ;;
      OK (Stats ni np (Some classes) (Some types) (Some optionals) (Some largest))
  end.

(** main.go:39-51 PropLenCount.MarshalJSON up to the JSON text: the keys in
    some order, sort.Slice (not stable) by descending length, the first 20. *)
Definition marshal_largest (order sorted : list proplen -> list proplen) (m : list (proplen * nat)) : list proplen :=
  let list_ := sorted (order (map fst m)) in
  if (20 <? length list_)%nat then firstn 20 list_ else list_.

(** main.go:218-224, and cmd/rbxfile-dcomp/main.go:57-63,
    cmd/rbxfile-dump/main.go:56-62: what is printed to stderr after decoding,
    as pairs of a label and the error that is wrapped. *)
Inductive printed (E : Type) := Wrapped (label : string) (e : option E).
Arguments Wrapped {E}.
Definition report {E} (wlabel elabel : string) (warn err : option E) : list (printed E) :=
  match warn with Some _ => [Wrapped wlabel warn] | None => [] end ++
  match err with Some _ => [Wrapped elabel warn] | None => [] end.
