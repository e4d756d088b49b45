(** SpecQuat.v - what rotation a quaternion stands for. *)
From Coq Require Import QArith Qabs.
From Verif Require Import Base Ieee SpecDeclare.
(** x i + y j + z k + w *)
Record quaternion := Quaternion { qx : Q; qy : Q; qz : Q; qw : Q }.
(** i i = j j = k k = i j k = -1 *)
Definition qmul (a b : quaternion) : quaternion :=
  Quaternion
    (qw a * qx b + qx a * qw b + qy a * qz b - qz a * qy b)
    (qw a * qy b - qx a * qz b + qy a * qw b + qz a * qx b)
    (qw a * qz b + qx a * qy b - qy a * qx b + qz a * qw b)
    (qw a * qw b - qx a * qx b - qy a * qy b - qz a * qz b).
Definition conjugate (a : quaternion) : quaternion := Quaternion (- qx a) (- qy a) (- qz a) (qw a).
Definition norm2 (a : quaternion) : Q := qx a * qx a + qy a * qy a + qz a * qz a + qw a * qw a.
(** The vector v turned by a (of length one): a v a*. *)
Definition turned (a : quaternion) (vx vy vz : Q) : quaternion := qmul (qmul a (Quaternion vx vy vz 0)) (conjugate a).
(** Entry number k of the matrix of the rotation, row by row: its columns are
    the turned unit vectors. *)
Definition unit_vector (a : quaternion) (c : nat) : quaternion :=
  match c with O => turned a 1 0 0 | S O => turned a 0 1 0 | _ => turned a 0 0 1 end.
Definition coordinate (r : nat) (a : quaternion) : Q := match r with O => qx a | S O => qy a | _ => qz a end.
Definition matrix_entry (a : quaternion) (k : nat) : Q := coordinate (k / 3) (unit_vector a (k mod 3)).
(** The floats x, y, z, w are the components of a. *)
Definition components (x y z w : N) (a : quaternion) : Prop :=
  f_real F32 x = Some (qx a) /\ f_real F32 y = Some (qy a) /\ f_real F32 z = Some (qz a) /\ f_real F32 w = Some (qw a).
(** None of them is larger than one. *)
Definition at_most_one (a : quaternion) : Prop := Qabs (qx a) <= 1 /\ Qabs (qy a) <= 1 /\ Qabs (qz a) <= 1 /\ Qabs (qw a) <= 1.
(** The nine floats are finite, and the entries of the matrix up to d. *)
Definition approximates (rot : list N) (a : quaternion) (d : Q) : Prop :=
  length rot = 9%nat /\
  forall k n, nth_error rot k = Some n -> exists r, f_real F32 n = Some r /\ Qabs (r - matrix_entry a k) <= d.
