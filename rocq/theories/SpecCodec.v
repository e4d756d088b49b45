(** SpecCodec.v - specification side for the conversion between instance trees
    and the binary format's chunks. *)
From Coq Require Import Permutation.
From Verif Require Import Base RbxlValues RbxlArrays RbxlModel RbxlFile RbxValues Tree RbxlCodec SpecValues SpecTree.

(** ** Rotations *)

(** The float32 with bit pattern f is the integer z, one of -1, 0, 1 (zero has
    two signs). *)
Definition float_is (f : N) (z : Z) : Prop :=
  (z = 1%Z /\ f = 0x3f800000%N) \/ (z = (-1)%Z /\ f = 0xbf800000%N) \/
  (z = 0%Z /\ (f = 0%N \/ f = 0x80000000%N)).
(** Equal up to the signs of zeros. *)
Definition same_float (f g : N) : Prop :=
  f = g \/ ((f = 0%N \/ f = 0x80000000%N) /\ (g = 0%N \/ g = 0x80000000%N)).
(** Integer 3x3 matrices, row by row: orthonormal rows, determinant 1. *)
Inductive is_rotation : list Z -> Prop :=
| rotation a b c d e f g h i :
    (a * a + b * b + c * c = 1)%Z -> (d * d + e * e + f * f = 1)%Z -> (g * g + h * h + i * i = 1)%Z ->
    (a * d + b * e + c * f = 0)%Z -> (a * g + b * h + c * i = 0)%Z -> (d * g + e * h + f * i = 0)%Z ->
    (a * (e * i - f * h) - b * (d * i - f * g) + c * (d * h - e * g) = 1)%Z ->
    is_rotation [a; b; c; d; e; f; g; h; i].

(** ** Values *)

(** Values a Go program can hold, with lengths the format can store. *)
Definition wf_key_n (k : nskey) : Prop := f32 (ns_time k) /\ f32 (ns_value k) /\ f32 (ns_env k).
Definition wf_key_c (k : cskey) : Prop :=
  f32 (cs_time k) /\ f32 (cs_r k) /\ f32 (cs_g k) /\ f32 (cs_b k) /\ f32 (cs_env k).
Fixpoint wf_rvalue (v : rvalue) : Prop :=
  match v with
  | RString s | RBinaryString s | RProtectedString s | RContent s | RSharedString s => len32 s
  | RBool _ | RFaces _ _ _ _ _ _ | RAxes _ _ _ | RColor3uint8 _ _ _ | RReference _ => True
  | RInt n => int_range 32 n
  | RFloat f => f32 f
  | RDouble f => f64 f
  | RUDim s o => f32 s /\ int_range 32 o
  | RUDim2 xs xo ys yo => f32 xs /\ int_range 32 xo /\ f32 ys /\ int_range 32 yo
  | RRay o d => wf_vec3 o /\ wf_vec3 d
  | RBrickColor n | RToken n => f32 n
  | RColor3 r g b => f32 r /\ f32 g /\ f32 b
  | RVector2 x y => f32 x /\ f32 y
  | RVector3 v => wf_vec3 v
  | RCFrame p rot => wf_vec3 p /\ length rot = 9 /\ Forall f32 rot
  | RVector3int16 x y z => int_range 16 x /\ int_range 16 y /\ int_range 16 z
  | RVector2int16 x y => int_range 16 x /\ int_range 16 y
  | RNumberSequence ks => len32 ks /\ Forall wf_key_n ks
  | RColorSequence ks => len32 ks /\ Forall wf_key_c ks
  | RNumberRange a b => f32 a /\ f32 b
  | RRect a b c d => f32 a /\ f32 b /\ f32 c /\ f32 d
  | RPhysicalProperties _ d f e fw ew => f32 d /\ f32 f /\ f32 e /\ f32 fw /\ f32 ew
  | RInt64 n => int_range 64 n
  | ROptional t (Some v) => t = rtype v /\ wf_rvalue v
  | ROptional t None => exists s, assocN typeStrings t = Some s
  | RUniqueId r t i => int_range 64 r /\ f32 t /\ f32 i
  | RFont f w _ c => len32 f /\ (w < 2 ^ 16)%N /\ len32 c
  end.

(** Values whose conversion needs nothing but the value. *)
Definition plain (v : rvalue) : Prop :=
  match v with RReference _ | RSharedString _ | ROptional _ _ => False | _ => True end.
(** What the format keeps of a plain value: one string type, rotations up to
    the sign of zeros. *)
Inductive keeps : rvalue -> rvalue -> Prop :=
| keeps_string s : keeps (RString s) (RString s)
| keeps_binary s : keeps (RBinaryString s) (RString s)
| keeps_protected s : keeps (RProtectedString s) (RString s)
| keeps_content s : keeps (RContent s) (RString s)
| keeps_cframe p rot rot' : Forall2 same_float rot rot' -> keeps (RCFrame p rot) (RCFrame p rot')
| keeps_same v : plain v -> (match v with RBinaryString _ | RProtectedString _ | RContent _ => False | _ => True end) ->
    keeps v v.
(** The same for a value that went through a file: physical properties that
    are not custom have no fields. *)
Definition without_fields (v : rvalue) : rvalue :=
  match v with RPhysicalProperties false _ _ _ _ _ => RPhysicalProperties false 0 0 0 0 0 | v => v end.
Definition keeps_stored (v v' : rvalue) : Prop := keeps (without_fields v) v'.

(** ** Trees *)

(** The one type the file has for a type: all kinds of strings are String. *)
Definition stored_type (t : Type_) : Type_ :=
  if existsb (N.eqb t) [TypeBinaryString; TypeProtectedString; TypeContent] then TypeString else t.
(** Instances in a list of addresses. *)
Definition inst_in (h : heap) (nodes : list ptr) (x : inst) : Prop :=
  exists p, In p nodes /\ hget h p = Some x.
(** The shared strings in the properties of the listed instances. *)
Definition shared_strings (h : heap) (nodes : list ptr) : list bytes :=
  flat_map (fun p => match hget h p with
                     | Some i => flat_map (fun nv => match snd nv with RSharedString s => [s] | _ => [] end) (i_props i)
                     | None => []
                     end) nodes.
(** What can be written: values Go programs hold, lengths that fit, not more
    instances and shared strings than there are numbers, no optional of an
    optional, and optionals of the same class and property have one type. *)
Record storable (h : heap) (nodes : list ptr) : Prop := Storable {
  st_count : (Z.of_nat (length nodes) < 2 ^ 31)%Z;
  st_strings : (N.of_nat (length (shared_strings h nodes)) < 2 ^ 32)%N;
  st_class : forall x, inst_in h nodes x -> len32 (i_class x) /\ NoDup (map fst (i_props x));
  st_props : forall x name v, inst_in h nodes x -> mfind (i_props x) name = Some v -> len32 name /\ wf_rvalue v;
  st_inner : forall x name t v, inst_in h nodes x -> mfind (i_props x) name = Some (ROptional t v) -> t <> TypeOptional;
  st_agree : forall x y name t u v w, inst_in h nodes x -> inst_in h nodes y -> i_class x = i_class y ->
    mfind (i_props x) name = Some (ROptional t v) -> mfind (i_props y) name = Some (ROptional u w) ->
    stored_type t = stored_type u }.
(** The hash does not confuse the shared strings of the tree. *)
Definition no_collision (hash : bytes -> bytes) (h : heap) (nodes : list ptr) : Prop :=
  forall s s', In s (shared_strings h nodes) -> In s' (shared_strings h nodes) -> hash s = hash s' -> s = s'.

(** Ranging over a map, and sorting, only reorder. *)
Definition orders_ok (ev : env) : Prop :=
  (forall g, Permutation g (ev_classes ev g)) /\ (forall n, Permutation n (ev_names ev n)) /\
  (forall m, Permutation m (ev_meta ev m)) /\ (forall m, Permutation m (ev_sort ev m)).

(** ** What a tree looks like after encoding and decoding *)

(** What a value becomes when instance p becomes [phi p]. *)
Inductive carried (phi : ptr -> ptr) : rvalue -> rvalue -> Prop :=
| carried_plain v v' : plain v -> keeps_stored v v' -> carried phi v v'
| carried_reference p : carried phi (RReference p) (RReference (phi p))
| carried_shared s : carried phi (RSharedString s) (RSharedString s)
| carried_none t : carried phi (ROptional t None) (ROptional (stored_type t) None)
| carried_some t v v' : plain v -> keeps_stored v v' ->
    carried phi (ROptional t (Some v)) (ROptional (stored_type t) (Some v'))
| carried_lost t v : ~ plain v ->              (* an optional reference or shared string *)
    carried phi (ROptional t (Some v)) (ROptional (stored_type t) None).
(** What an instance gets for a property that it does not have but another
    instance of its class has, with value w: [first] is the first instance,
    [fs] the first shared string of the file. *)
Inductive filled (first : ptr) (fs : bytes) : rvalue -> rvalue -> Prop :=
| filled_optional t o : filled first fs (ROptional t o) (ROptional (stored_type t) None)
| filled_reference p : filled first fs (RReference p) (RReference first)
| filled_shared s : filled first fs (RSharedString s) (RSharedString fs)
| filled_cframe p rot : filled first fs (RCFrame p rot) (RCFrame (Vec3 0 0 0) (repeat 0%N 9))
| filled_plain w d : plain w -> rtype w <> TypeCFrame -> NewValue (stored_type (rtype w)) = Some d ->
    filled first fs w d.
(** The values of a property in the instances of a class have one type. *)
Definition alike (h : heap) (nodes : list ptr) (class name : bytes) : Prop :=
  forall x y v w, inst_in h nodes x -> inst_in h nodes y -> i_class x = class -> i_class y = class ->
    mfind (i_props x) name = Some v -> mfind (i_props y) name = Some w ->
    stored_type (rtype v) = stored_type (rtype w).
(** The property is written, and w is one of its values: models have no
    unique ids. *)
Definition written_prop (place : bool) (h : heap) (nodes : list ptr) (class name : bytes) (w : rvalue) : Prop :=
  (exists x, inst_in h nodes x /\ i_class x = class /\ mfind (i_props x) name = Some w) /\
  alike h nodes class name /\ (place = true \/ rtype w <> TypeUniqueId).
(** Instance x' is the image of x. *)
Record image_inst (place : bool) (h : heap) (nodes : list ptr) (phi : ptr -> ptr) (fs : bytes) (x x' : inst) : Prop := {
  ii_class : i_class x' = i_class x;
  ii_service : i_service x' = place && i_service x;
  ii_ref : i_ref x' = [];
  ii_children : i_children x' = map phi (i_children x);
  ii_has : forall name v, mfind (i_props x) name = Some v -> written_prop place h nodes (i_class x) name v ->
    exists v', mfind (i_props x') name = Some v' /\ carried phi v v';
  ii_fill : forall name w, mfind (i_props x) name = None -> written_prop place h nodes (i_class x) name w ->
    exists v', mfind (i_props x') name = Some v' /\ filled (phi (hd 0 nodes)) fs w v';
  ii_skip : forall name, (forall w, ~ written_prop place h nodes (i_class x) name w) -> mfind (i_props x') name = None }.
(** h' holds the image of the listed instances, phi p for p, and nothing else. *)
Record image (place : bool) (h : heap) (nodes : list ptr) (phi : ptr -> ptr) (h' : heap) : Prop := {
  im_size : length h' = length nodes;
  im_inj : forall p q, In p nodes -> In q nodes -> phi p = phi q -> p = q;
  im_outside : forall p, ~ In p nodes -> phi p = 0;
  im_inst : exists fs,
    (forall class name s, written_prop place h nodes class name (RSharedString s) -> In fs (shared_strings h nodes)) /\
    forall p x, In p nodes -> hget h p = Some x ->
      exists x', hget h' (phi p) = Some x' /\ image_inst place h nodes phi fs x x' }.
(** Types whose arrays the format stores byte-interleaved; an optional of such
    a type does not survive a file (C12). *)
Definition block_types : list Type_ :=
  [TypeInt; TypeFloat; TypeUDim; TypeUDim2; TypeBrickColor; TypeColor3; TypeVector2; TypeVector3; TypeToken; TypeReference;
   TypeRect; TypeColor3uint8; TypeInt64; TypeSharedString; TypeUniqueId].
(** What a file can hold beyond [storable]. *)
Record fits_file (h : heap) (nodes : list ptr) (r : root) : Prop := {
  ff_count : (N.of_nat (length nodes) < 2 ^ 30)%N;
  ff_meta : len32 (r_metadata r) /\ Forall (fun kv => len32 (fst kv) /\ len32 (snd kv)) (r_metadata r);
  ff_optional : forall x name t v, inst_in h nodes x -> mfind (i_props x) name = Some (ROptional t v) -> ~ In t block_types }.
