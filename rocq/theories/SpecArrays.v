(** SpecArrays.v - specification side for property arrays. *)
From Verif Require Import Base RbxlValues RbxlArrays SpecValues.

(** Go's static typing: every element has the array's type; an optional array
    pairs values with presence flags of the same length. *)
Inductive wf_array : array -> Prop :=
| wf_plain t vs :
    t <> tOptional -> Forall (fun v => vtype v = t /\ wf_value v) vs -> wf_array (ARR t vs)
| wf_optional v ps :
    wf_array v -> length ps = arr_len v -> wf_array (AOPT (Some v) ps).

(** What the format stores of an array. *)
Fixpoint stored_array (a : array) : array :=
  match a with
  | ARR t vs => ARR t (map stored vs)
  | AOPT None ps => AOPT None ps
  | AOPT (Some v) ps => AOPT (Some (stored_array v)) ps
  end.

(** Byte i of element j of [b], an array of elements of [size] bytes. *)
Definition elem_byte (size : nat) (b : bytes) (j i : nat) : byte := nth (j * size + i) b x00.

(** Types written as one byte-interleaved block. *)
Definition is_interleaved_type (t : tid) : Prop :=
  In t [tInt; tFloat; tUDim; tUDim2; tBrickColor; tColor3; tVector2; tVector3; tToken; tReference;
        tRect; tColor3uint8; tInt64; tSharedString; tUniqueId].
Definition is_cframe_type (t : tid) : Prop := t = tCFrame \/ t = tCFrameQuat.

(** The innermost element type of an array. *)
Fixpoint elem_type (a : array) : tid :=
  match a with
  | ARR t _ => t
  | AOPT None _ => tOptional
  | AOPT (Some v) _ => elem_type v
  end.
