(** Quat.v - the rotation that a CFrame stored as a quaternion has.
    Models /repo/rbxl/values.go:1582-1597 ToCFrame. *)
From Coq Require Import QArith Qabs.
From Verif Require Import Base SpecDeclare Ieee RbxlCodec.

(** A Go expression of type float32. *)
Inductive fop := Mul | Add | Sub.
Inductive fexpr := Flt (n : N) | Op (o : fop) (a b : fexpr).
Definition op_real (o : fop) (x y : Q) : Q := match o with Mul => x * y | Add => x + y | Sub => x - y end.
(** What an operation gives whose exact result is x: a number, or nothing if
    it is not finite.  The result is rounded, or it is not because the operation
    is fused with the one that uses it: "an implementation may combine multiple
    floating-point operations into a single fused operation" (the Go language
    specification, Floating-point operators). *)
Definition kept (x : Q) (v : option Q) : Prop :=
  (exists y, v = Some y /\ y == x) \/ (exists n, nearest F32 x n /\ v = f_real F32 n).
(** The values of an expression.  Simplified: an operation with an operand that
    is not finite gives nothing. *)
Fixpoint value_of (e : fexpr) (v : option Q) : Prop :=
  match e with
  | Flt n => v = f_real F32 n
  | Op o a b => exists u w, value_of a u /\ value_of b w /\
      match u, w with Some x, Some y => kept (op_real o x y) v | _, _ => v = None end
  end.
(** The floats an expression may evaluate to; any if it has no finite value. *)
Definition evaluates (e : fexpr) (n : N) : Prop :=
  exists v, value_of e v /\ match v with Some x => nearest F32 x n | None => True end.

(** values.go:1590-1594: the nine expressions, in the order of the array. *)
Definition rotation_exprs (qx qy qz qw : N) : list fexpr :=
  let QX := Flt qx in let QY := Flt qy in let QZ := Flt qz in let QW := Flt qw in
  let One := Flt 0x3f800000 in let Two := Flt 0x40000000 in
  [ Op Sub One (Op Mul Two (Op Add (Op Mul QY QY) (Op Mul QZ QZ)));
    Op Mul Two (Op Sub (Op Mul QY QX) (Op Mul QW QZ));
    Op Mul Two (Op Add (Op Mul QW QY) (Op Mul QZ QX));
    Op Mul Two (Op Add (Op Mul QW QZ) (Op Mul QY QX));
    Op Sub One (Op Mul Two (Op Add (Op Mul QX QX) (Op Mul QZ QZ)));
    Op Mul Two (Op Sub (Op Mul QZ QY) (Op Mul QW QX));
    Op Mul Two (Op Sub (Op Mul QZ QX) (Op Mul QW QY));
    Op Mul Two (Op Add (Op Mul QW QX) (Op Mul QZ QY));
    Op Sub One (Op Mul Two (Op Add (Op Mul QX QX) (Op Mul QY QY))) ]%N.
(** A compilation of ToCFrame. *)
Definition compiled (q2m : quat) : Prop :=
  forall x y z w, Forall2 evaluates (rotation_exprs x y z w) (q2m x y z w).

(** The compilation that fuses nothing. *)
Definition exact_op (o : fop) (a b : fval) : fval :=
  match a, b with
  | Finite s m e, Finite t k d =>
      let m := if s then Z.opp m else m in let k := if t then Z.opp k else k in
      let r := match o with
               | Mul => (m * k, e + d)%Z
               | Add => (m * 2 ^ (e - Z.min e d) + k * 2 ^ (d - Z.min e d), Z.min e d)%Z
               | Sub => (m * 2 ^ (e - Z.min e d) - k * 2 ^ (d - Z.min e d), Z.min e d)%Z
               end in
      Finite (fst r <? 0)%Z (Z.abs (fst r)) (snd r)
  | _, _ => NaN false 1
  end.
Definition f_op (o : fop) (a b : N) : N :=
  match exact_op o (f_decode F32 a) (f_decode F32 b) with
  | Finite s m e => f_round F32 s m e
  | _ => 0x7fc00000%N
  end.
Fixpoint run_expr (e : fexpr) : N :=
  match e with Flt n => n | Op o a b => f_op o (run_expr a) (run_expr b) end.
Definition unfused : quat := fun x y z w => map run_expr (rotation_exprs x y z w).
