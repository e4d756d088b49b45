(** SpecValues.v - specification side for single binary values: which values
    a Go program can hold ([wf_value]) and which part of them the format
    stores ([stored]).  Nothing here is used by the model. *)
From Verif Require Import Base RbxlValues.

(** Bit patterns of float32 / uint32, float64, and lengths that fit the
    format's 32-bit length field. *)
Definition f32 (n : N) : Prop := (n < 2 ^ 32)%N.
Definition f64 (n : N) : Prop := (n < 2 ^ 64)%N.
Definition len32 {A} (l : list A) : Prop := (N.of_nat (length l) < 2 ^ 32)%N.
Definition int_range (bits : Z) (n : Z) : Prop := (- 2 ^ (bits - 1) <= n < 2 ^ (bits - 1))%Z.

(** Every value the Go structs can represent, with lengths below 2^32. *)
Definition wf_vec3 (v : vec3) : Prop := f32 (v3x v) /\ f32 (v3y v) /\ f32 (v3z v).
Definition wf_value (v : value) : Prop :=
  match v with
  | VString s => len32 s
  | VBool _ => True
  | VInt n => int_range 32 n
  | VFloat f => f32 f
  | VDouble f => f64 f
  | VUDim s o => f32 s /\ int_range 32 o
  | VUDim2 sx sy ox oy => f32 sx /\ f32 sy /\ int_range 32 ox /\ int_range 32 oy
  | VRay a b c d e f => f32 a /\ f32 b /\ f32 c /\ f32 d /\ f32 e /\ f32 f
  | VFaces _ _ _ _ _ _ => True
  | VAxes _ _ _ => True
  | VBrickColor n => f32 n
  | VColor3 r g b => f32 r /\ f32 g /\ f32 b
  | VVector2 x y => f32 x /\ f32 y
  | VVector3 v => wf_vec3 v
  | VVector2int16 x y => int_range 16 x /\ int_range 16 y
  | VCFrame _ rot p => length rot = 9 /\ Forall f32 rot /\ wf_vec3 p
  | VCFrameQuat _ x y z w p => f32 x /\ f32 y /\ f32 z /\ f32 w /\ wf_vec3 p
  | VToken n => f32 n
  | VReference n => int_range 32 n
  | VVector3int16 x y z => int_range 16 x /\ int_range 16 y /\ int_range 16 z
  | VNumberSequence ks =>
      len32 ks /\ Forall (fun k => f32 (ns_time k) /\ f32 (ns_value k) /\ f32 (ns_env k)) ks
  | VColorSequence ks =>
      len32 ks /\ Forall (fun k => f32 (cs_time k) /\ f32 (cs_r k) /\ f32 (cs_g k) /\
                                   f32 (cs_b k) /\ f32 (cs_env k)) ks
  | VNumberRange a b => f32 a /\ f32 b
  | VRect a b c d => f32 a /\ f32 b /\ f32 c /\ f32 d
  | VPhysicalProperties _ d f e fw ew => f32 d /\ f32 f /\ f32 e /\ f32 fw /\ f32 ew
  | VColor3uint8 _ _ _ => True
  | VInt64 n => int_range 64 n
  | VSharedString n => f32 n
  | VUniqueId r t i => int_range 64 r /\ f32 t /\ f32 i
  | VFont f w _ c => len32 f /\ (w < 2 ^ 16)%N /\ len32 c
  end.

(** What the format keeps: a CFrame with a special-rotation id does not store
    its matrix or quaternion, and default physical properties store no fields. *)
Definition stored (v : value) : value :=
  match v with
  | VCFrame sp rot p => if Byte.eqb sp x00 then v else VCFrame sp (repeat 0%N 9) p
  | VCFrameQuat sp x y z w p => if Byte.eqb sp x00 then v else VCFrameQuat sp 0 0 0 0 p
  | VPhysicalProperties c d f e fw ew =>
      if Byte.eqb c x00 then VPhysicalProperties c 0 0 0 0 0 else v
  | _ => v
  end.

(** The types whose encoding has don't-care bits: a bool is any non-zero
    byte, Faces and Axes ignore the upper bits. *)
Definition has_spare_bits (t : tid) : bool :=
  match t with tBool | tFaces | tAxes => true | _ => false end.
