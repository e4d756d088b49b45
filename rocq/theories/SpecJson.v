(** SpecJson.v - specification side for the JSON format. *)
From Verif Require Import Base RbxlValues RbxValues Tree SpecValues SpecTree SpecCodec Ieee Json.

(** ** Text *)

(** Unicode scalar values and their UTF-8 form. *)
Definition scalar (c : N) : Prop := (c < 0xd800 \/ 0xe000 <= c < 0x110000)%N.
Definition rune_bytes (c : N) : bytes :=
  if (c <? 0x80)%N then [N2b c]
  else if (c <? 0x800)%N then [N2b (0xc0 + c / 64); N2b (0x80 + c mod 64)]
  else if (c <? 0x10000)%N then [N2b (0xe0 + c / 4096); N2b (0x80 + c / 64 mod 64); N2b (0x80 + c mod 64)]
  else [N2b (0xf0 + c / 262144); N2b (0x80 + c / 4096 mod 64); N2b (0x80 + c / 64 mod 64); N2b (0x80 + c mod 64)].
Definition utf8 (s : bytes) : Prop := exists cs, Forall scalar cs /\ s = flat_map rune_bytes cs.

(** ** Values *)

Definition real32 (f : N) : Prop := f32 f /\ f_finite F32 f = true.
Definition real_vec3 (v : vec3) : Prop := real32 (v3x v) /\ real32 (v3y v) /\ real32 (v3z v).
(** Values that can be written: text is UTF-8, numbers are finite, 64-bit
    integers have at most 53 bits. *)
Definition jsonable (v : rvalue) : Prop :=
  match v with
  | RString s | RProtectedString s | RContent s => utf8 s
  | RFloat f => real32 f
  | RDouble f => f_finite F64 f = true
  | RUDim s o => real32 s /\ int_range 32 o
  | RUDim2 xs xo ys yo => real32 xs /\ int_range 32 xo /\ real32 ys /\ int_range 32 yo
  | RRay o d => real_vec3 o /\ real_vec3 d
  | RColor3 r g b => real32 r /\ real32 g /\ real32 b
  | RVector2 x y => real32 x /\ real32 y
  | RVector3 v => real_vec3 v
  | RCFrame p rot => real_vec3 p /\ length rot = 9 /\ Forall real32 rot
  | RNumberSequence ks => Forall (fun k => real32 (ns_time k) /\ real32 (ns_value k) /\ real32 (ns_env k)) ks
  | RColorSequence ks =>
      Forall (fun k => real32 (cs_time k) /\ real32 (cs_r k) /\ real32 (cs_g k) /\ real32 (cs_b k) /\ real32 (cs_env k)) ks
  | RNumberRange a b => real32 a /\ real32 b
  | RRect a b c d => real32 a /\ real32 b /\ real32 c /\ real32 d
  | RPhysicalProperties _ d f e fw ew => real32 d /\ real32 f /\ real32 e /\ real32 fw /\ real32 ew
  | RInt n => int_range 32 n
  | RInt64 n => (Z.abs n < 2 ^ 53)%Z
  | RBrickColor n | RToken n => f32 n
  | RVector3int16 x y z => int_range 16 x /\ int_range 16 y /\ int_range 16 z
  | RVector2int16 x y => int_range 16 x /\ int_range 16 y
  | RBinaryString _ | RSharedString _ | RBool _ | RFaces _ _ _ _ _ _ | RAxes _ _ _ | RColor3uint8 _ _ _
  | RUniqueId _ _ _ | RFont _ _ _ _ | RReference _ => True
  | ROptional _ _ => False
  end.
(** What becomes of a value that is not a reference: one or two bytes at the
    end of binary data are lost, and there is nothing for unique ids and
    fonts. *)
Definition threes (s : bytes) : bytes := firstn (length s / 3 * 3) s.
Definition json_value (v : rvalue) : option rvalue :=
  match v with
  | RBinaryString s => Some (RBinaryString (threes s))
  | RSharedString s => Some (RSharedString (threes s))
  | RUniqueId _ _ _ | RFont _ _ _ _ => None
  | v => Some v
  end.

(** ** Trees *)
Definition json_prop (phi : ptr -> ptr) (v : rvalue) : option rvalue :=
  match v with RReference q => Some (RReference (phi q)) | v => json_value v end.
(** Instances whose text is UTF-8. *)
Record json_storable (h : heap) (nodes : list ptr) : Prop := {
  jo_inst : forall x, inst_in h nodes x ->
    utf8 (i_class x) /\ utf8 (i_ref x);
  jo_prop : forall x name v, inst_in h nodes x -> mfind (i_props x) name = Some v -> utf8 name /\ jsonable v;
  jo_target : forall x name q, inst_in h nodes x -> mfind (i_props x) name = Some (RReference q) -> q <> 0 ->
    exists y, hget h q = Some y /\ utf8 (i_ref y) }.
(** h' holds the images of the listed instances of h and nothing else;
    [named] is h with the references that were written. *)
Record json_image (h named : heap) (nodes : list ptr) (phi : ptr -> ptr) (h' : heap) : Prop := {
  ji_size : length h' = length nodes;
  ji_inj : forall p q, In p nodes -> In q nodes -> phi p = phi q -> p = q;
  ji_outside : forall p, ~ In p nodes -> phi p = 0;
  ji_inst : forall p x, In p nodes -> hget h p = Some x ->
    exists x' y, hget h' (phi p) = Some x' /\ hget named p = Some y /\ same_but_ref x y /\
      i_class x' = i_class x /\ i_service x' = i_service x /\ i_children x' = [] /\ i_ref x' = i_ref y /\
      forall name, mfind (i_props x') name =
        match mfind (i_props x) name with Some v => json_prop phi v | None => None end }.
(** Distinct instances without children. *)
Definition childless (h : heap) (nodes : list ptr) : Prop :=
  NoDup nodes /\ forall p, In p nodes -> exists x, hget h p = Some x /\ i_children x = [].
(** Ranging over a map of JSON members only reorders. *)
Definition any_members (ord : list (bytes * jv) -> list (bytes * jv)) : Prop := forall l, Permutation.Permutation l (ord l).

(** The float32 and float64 numbers in a value. *)
Definition vec_numbers (v : vec3) : list N := [v3x v; v3y v; v3z v].
Fixpoint singles (v : rvalue) : list N :=
  match v with
  | RFloat f => [f]
  | RUDim s _ => [s]
  | RUDim2 xs _ ys _ => [xs; ys]
  | RRay o d => vec_numbers o ++ vec_numbers d
  | RColor3 r g b => [r; g; b]
  | RVector2 x y => [x; y]
  | RVector3 v => vec_numbers v
  | RCFrame p rot => vec_numbers p ++ rot
  | RNumberSequence ks => flat_map (fun k => [ns_time k; ns_value k; ns_env k]) ks
  | RColorSequence ks => flat_map (fun k => [cs_time k; cs_r k; cs_g k; cs_b k; cs_env k]) ks
  | RNumberRange a b => [a; b]
  | RRect a b c d => [a; b; c; d]
  | RPhysicalProperties _ d f e fw ew => [d; f; e; fw; ew]
  | ROptional _ (Some v) => singles v
  | _ => []
  end.
Fixpoint doubles (v : rvalue) : list N :=
  match v with RDouble f => [f] | ROptional _ (Some v) => doubles v | _ => [] end.
(** One of them is an infinity or not a number. *)
Definition nonfinite (v : rvalue) : Prop :=
  (exists f, In f (singles v) /\ f_finite F32 f = false) \/ (exists f, In f (doubles v) /\ f_finite F64 f = false).

(** ** Documents that can be read *)

(** The kind of JSON value a type is read from. *)
Inductive kind := KText | KTextOrNull | KBool | KNumber | KObject | KArray | KNothing.
Definition kinds : list (Type_ * kind) :=
  [(TypeString, KText); (TypeBinaryString, KText); (TypeProtectedString, KText); (TypeContent, KTextOrNull); (TypeBool, KBool); (TypeInt, KNumber);
   (TypeFloat, KNumber); (TypeDouble, KNumber); (TypeUDim, KObject); (TypeUDim2, KObject); (TypeRay, KObject); (TypeFaces, KObject); (TypeAxes, KObject);
   (TypeBrickColor, KNumber); (TypeColor3, KObject); (TypeVector2, KObject); (TypeVector3, KObject); (TypeCFrame, KObject); (TypeToken, KNumber);
   (TypeReference, KText); (TypeVector3int16, KObject); (TypeVector2int16, KObject); (TypeNumberSequence, KArray); (TypeColorSequence, KArray);
   (TypeNumberRange, KObject); (TypeRect, KObject); (TypePhysicalProperties, KObject); (TypeColor3uint8, KObject); (TypeInt64, KNumber);
   (TypeSharedString, KText); (TypeOptional, KObject)].
Definition kind_of (t : Type_) : kind := match assocN kinds t with Some k => k | None => KNothing end.
Definition has_kind (v : jv) (k : kind) : bool :=
  match k, v with
  | KText, JStr _ | KTextOrNull, JStr _ | KTextOrNull, JNull | KBool, JBool _ | KNumber, JNum _ | KObject, JObj _ | KArray, JArr _ => true
  | _, _ => false
  end.
(** Members an object must have. *)
Inductive need := NNumber | NBool | NObject (ms : list (String.string * need)).
Fixpoint meets (n : need) (v : jv) : Prop :=
  match n with
  | NNumber => exists f, v = JNum f
  | NBool => exists b, v = JBool b
  | NObject ms => exists m, v = JObj m /\
      (fix all ms := match ms with [] => True | (k, n) :: ms => (exists x, mfind m (str k) = Some x /\ meets n x) /\ all ms end) ms
  end.
Definition numbers (l : list String.string) : need := NObject (map (fun k => (k, NNumber)) l).
Definition bools (l : list String.string) : need := NObject (map (fun k => (k, NBool)) l).
Definition n_udim := numbers ["scale"; "offset"]%string.
Definition n_color3 := numbers ["r"; "g"; "b"]%string.
Definition n_vec2 := numbers ["x"; "y"]%string.
Definition n_vec3 := numbers ["x"; "y"; "z"]%string.
Definition n_keypoint := numbers ["time"; "value"; "envelope"]%string.
Definition n_color_keypoint := NObject [("time", NNumber); ("value", n_color3); ("envelope", NNumber)]%string.
Definition needs : list (Type_ * need) :=
  [(TypeUDim, n_udim); (TypeUDim2, NObject [("x", n_udim); ("y", n_udim)]%string); (TypeRay, NObject [("origin", n_vec3); ("direction", n_vec3)]%string);
   (TypeFaces, bools ["right"; "top"; "back"; "left"; "bottom"; "front"]%string); (TypeAxes, bools ["x"; "y"; "z"]%string);
   (TypeColor3, n_color3); (TypeVector2, n_vec2); (TypeVector3, n_vec3); (TypeCFrame, NObject [("position", n_vec3)]%string);
   (TypeVector3int16, n_vec3); (TypeVector2int16, n_vec2); (TypeNumberRange, numbers ["min"; "max"]%string);
   (TypeRect, NObject [("min", n_vec2); ("max", n_vec2)]%string);
   (TypePhysicalProperties, NObject [("custom_physics", NBool); ("density", NNumber); ("friction", NNumber); ("elasticity", NNumber);
      ("friction_weight", NNumber); ("elasticity_weight", NNumber)]%string);
   (TypeColor3uint8, n_color3)].
(** A value that is read, or ignored, without a panic. *)
Inductive readable : Type_ -> jv -> Prop :=
| rd_ignored t v : has_kind v (kind_of t) = false -> readable t v
| rd_simple t v : t <> TypeOptional -> has_kind v (kind_of t) = true ->
    (forall n, assocN needs t = Some n -> meets n v) ->
    (forall m l, t = TypeCFrame -> v = JObj m -> mfind m (str "rotation") = Some (JArr l) -> Forall (fun x => exists f, x = JNum f) (firstn 9 l)) ->
    (forall l m, t = TypeNumberSequence -> v = JArr l -> In (JObj m) l -> meets n_keypoint (JObj m)) ->
    (forall l m, t = TypeColorSequence -> v = JArr l -> In (JObj m) l -> meets n_color_keypoint (JObj m)) ->
    readable t v
| rd_none m name : mfind m (str "type") = Some (JStr name) -> mfind m (str "value") = None \/ mfind m (str "value") = Some JNull ->
    readable TypeOptional (JObj m)
| rd_some m name v : mfind m (str "type") = Some (JStr name) -> mfind m (str "value") = Some v -> v <> JNull ->
    has_kind v (kind_of (type_of_name name)) = true -> readable (type_of_name name) v -> readable TypeOptional (JObj m).
(** An instance object; its children; what makes reading it panic: a property
    that is not readable, or a child that is an instance. *)
Definition instance_object (v : jv) : Prop := exists m class, v = JObj m /\ mfind m (str "class_name") = Some (JStr class).
Definition unreadable_prop (v : jv) : Prop :=
  exists m ps name pm t x, v = JObj m /\ mfind m (str "properties") = Some (JObj ps) /\ In (name, JObj pm) ps /\
    mfind pm (str "type") = Some (JStr t) /\ mfind pm (str "value") = Some x /\ ~ readable (type_of_name t) x.
Definition child_instance (v : jv) : Prop :=
  exists m l c, v = JObj m /\ mfind m (str "children") = Some (JArr l) /\ In c l /\ instance_object c.
Definition breaks (v : jv) : Prop := instance_object v /\ (unreadable_prop v \/ child_instance v).
(** The instances a value refers to. *)
Fixpoint targets (v : rvalue) : list ptr :=
  match v with RReference q => [q] | ROptional _ (Some v) => targets v | _ => [] end.
(** Every reference from the listed instances is nil or an instance of h. *)
Definition no_dangling (h : heap) (nodes : list ptr) : Prop :=
  forall x name v q, inst_in h nodes x -> In (name, v) (i_props x) -> In q (targets v) -> q <= length h.
(** A document as json.Unmarshal makes it: members have different names. *)
Inductive unmarshalled : jv -> Prop :=
| um_null : unmarshalled JNull
| um_bool b : unmarshalled (JBool b)
| um_num f : unmarshalled (JNum f)
| um_str s : unmarshalled (JStr s)
| um_arr l : Forall unmarshalled l -> unmarshalled (JArr l)
| um_obj m : NoDup (map fst m) -> Forall (fun kv => unmarshalled (snd kv)) m -> unmarshalled (JObj m).
(** Heaps that differ at most in the way property maps are listed. *)
Definition same_inst (i j : inst) : Prop :=
  i_class i = i_class j /\ i_ref i = i_ref j /\ i_service i = i_service j /\ i_children i = i_children j /\
  forall name, mfind (i_props i) name = mfind (i_props j) name.
Definition same_heap (h h' : heap) : Prop := Forall2 same_inst h h'.
